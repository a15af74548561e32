From Coq Require Import String Bool Arith Lia List.
From Verif Require Import Model_Types Model_Adminer Spec_Adminer.
Import ListNotations.
Open Scope list_scope.
Open Scope nat_scope.

Lemma aruns_app : forall dc s tr s1 tr' s2, aruns dc s tr s1 -> aruns dc s1 tr' s2 -> aruns dc s (tr ++ tr') s2.
Proof. intros dc s tr s1 tr' s2 H. induction H; intros K; cbn; auto. econstructor; eauto. Qed.
Lemma aruns_snoc : forall dc s tr s1 e o s2, aruns dc s tr s1 -> astep dc s1 e = Some (s2, o) -> aruns dc s (tr ++ [(e, o)]) s2.
Proof. intros. eapply aruns_app; eauto. econstructor; eauto. constructor. Qed.
Lemma aruns_split : forall dc tr s tr' s2, aruns dc s (tr ++ tr') s2 -> exists s1, aruns dc s tr s1 /\ aruns dc s1 tr' s2.
Proof.
  intros dc. induction tr as [|[e o] tr IH]; cbn; intros s tr' s2 H; [exists s; split; [constructor|auto]|].
  inversion H as [|? ? ? s1 ? ? E R]; subst. destruct (IH _ _ _ R) as (s3 & A & B). exists s3. split; auto. econstructor; eauto.
Qed.
Lemma aruns_ind_r : forall dc s (P : list (aevent * list ahist) -> adm -> Prop), P [] s ->
  (forall tr s1 e o s2, aruns dc s tr s1 -> P tr s1 -> astep dc s1 e = Some (s2, o) -> P (tr ++ [(e, o)]) s2) ->
  forall tr s', aruns dc s tr s' -> P tr s'.
Proof.
  intros dc s P P0 PS tr. induction tr as [|[e o] tr IH] using rev_ind; intros s' R.
  - inversion R; subst. auto.
  - apply aruns_split in R. destruct R as (s1 & R & L). inversion L as [|? ? ? s2 ? ? E N]; subst. inversion N; subst. eauto.
Qed.

Lemma history_snoc : forall tr e o, history (tr ++ [(e, o)]) = history tr ++ o.
Proof. intros. unfold history. rewrite flat_map_app. cbn. now rewrite app_nil_r. Qed.

Lemma upd_same : forall f c x, upd f c x c = x.
Proof. intros. unfold upd. now rewrite Nat.eqb_refl. Qed.
Lemma upd_other : forall f c x k, k <> c -> upd f c x k = f k.
Proof. intros f c x k H. unfold upd. destruct (Nat.eqb_spec k c); congruence. Qed.

Lemma obo_snoc : forall dc c lin c1 n q c2 r, one_by_one dc c lin c1 -> serve dc c1 q = (c2, r) ->
  one_by_one dc c (lin ++ [(n, q, r)]) c2.
Proof.
  intros dc c lin c1 n q c2 r H. induction H; cbn [app]; intros E; try (constructor; auto; fail).
  destruct q as [|d]; cbn in E; [injection E as <- <-; constructor; constructor|].
  destruct (dc d) eqn:D; injection E as <- <-; [apply obo_refused with (1 := D)|apply obo_set; auto]; constructor.
Qed.

(** ** Lists of calls *)

Lemma find_call_In : forall n l p, find_call n l = Some p -> In p l /\ ap_call p = n.
Proof. intros n l p H. apply find_some in H. destruct H as [I E]. apply Nat.eqb_eq in E. auto. Qed.
Lemma find_future_In : forall v l p, find_future v l = Some p -> In p l /\ ap_conv p = v /\ has_future p = true.
Proof. intros v l p H. apply find_some in H. destruct H as [I E]. apply andb_prop in E. destruct E as [E1 E2]. apply Nat.eqb_eq in E2. auto. Qed.
Lemma In_del : forall n l p, In p (del_call n l) <-> In p l /\ ap_call p <> n.
Proof. intros n l p. unfold del_call. rewrite filter_In, negb_true_iff, Nat.eqb_neq. tauto. Qed.
Lemma In_set : forall n st l p, In p (set_call n st l) ->
  exists p', In p' l /\ ap_call p = ap_call p' /\ ap_conv p = ap_conv p' /\ ap_kind p = ap_kind p' /\
    (ap_call p' = n /\ ap_state p = st \/ ap_call p' <> n /\ p = p').
Proof.
  intros n st l p H. apply in_map_iff in H. destruct H as (p' & E & I). exists p'. destruct (Nat.eqb_spec (ap_call p') n); subst p; cbn; auto 10.
Qed.
Lemma In_fail : forall l p, In p (fail_futures l) ->
  exists p', In p' l /\ ap_call p = ap_call p' /\ ap_conv p = ap_conv p' /\ ap_kind p = ap_kind p' /\ (ap_state p = SFail \/ p = p').
Proof.
  intros l p H. apply in_map_iff in H. destruct H as (p' & E & I). exists p'. destruct (ap_state p') eqn:S; subst p; cbn; auto 10.
Qed.
Definition calls (l : list apend) : list nat := map ap_call l.
Lemma calls_set : forall n st l, calls (set_call n st l) = calls l.
Proof. intros. unfold calls, set_call. rewrite map_map. apply map_ext. intros p. destruct (ap_call p =? n); reflexivity. Qed.
Lemma calls_fail : forall l, calls (fail_futures l) = calls l.
Proof. intros. unfold calls, fail_futures. rewrite map_map. apply map_ext. intros p. destruct (ap_state p); reflexivity. Qed.
Lemma NoDup_del : forall n l, NoDup (calls l) -> NoDup (calls (del_call n l)).
Proof.
  intros n l. unfold calls, del_call. induction l as [|p l IH]; cbn; intros H; [constructor|]. inversion H as [|? ? N D]; subst.
  destruct (negb (ap_call p =? n)); cbn; auto. constructor; auto. intros I. apply N. apply in_map_iff in I. destruct I as (p' & E & I).
  apply filter_In in I. rewrite <- E. apply in_map. tauto.
Qed.

(** ** The invariant *)

Definition calls_of (g : nat -> list (nat * (nat * areq))) (c v n : nat) (q : areq) : Prop := In (v, (n, q)) (g c).

Definition lin_n (x : nat * areq * ares) : nat := fst (fst x).

Record ainv (dc : json -> option string) (c0 : json) (h : list ahist) (s : adm)
  (g : nat -> list (nat * (nat * areq))) (lin : list (nat * areq * ares)) : Prop := Ainv {
  i_legal : one_by_one dc c0 lin (ad_conf s);
  i_nodup : NoDup (map lin_n lin);
  i_used : forall c v n q, calls_of g c v n q -> In n (ad_used s);
  i_uniq : forall c v n q c' v' q', calls_of g c v n q -> calls_of g c' v' n q' -> c = c' /\ v = v' /\ q = q';
  i_conv : forall c v n q, calls_of g c v n q -> v < a_conv (ad_conns s c);
  i_fun : forall c v n q n' q', calls_of g c v n q -> calls_of g c v n' q' -> n = n' /\ q = q';
  i_called : forall c v n q, calls_of g c v n q -> In (HCall n q) h;
  i_calls : forall n q, In (HCall n q) h -> In n (ad_used s);
  i_lin : forall n q r, In (n, q, r) lin -> exists c v, calls_of g c v n q;
  i_reqs : forall c v q, In (v, q) (a_reqs (ad_conns s c)) -> exists n, calls_of g c v n q /\ ~ In n (map lin_n lin);
  i_reqs_nd : forall c, NoDup (map fst (a_reqs (ad_conns s c)));
  i_ress : forall c v k r, In (v, k, r) (a_ress (ad_conns s c)) -> exists n q, calls_of g c v n q /\ In (n, q, r) lin;
  i_pend : forall c p, In p (a_pend (ad_conns s c)) -> exists q, calls_of g c (ap_conv p) (ap_call p) q /\
    (forall r, ap_state p = SDone r -> In (ap_call p, q, r) lin) /\ ~ In (ap_call p) (ended h);
  i_pend_nd : forall c, NoDup (calls (a_pend (ad_conns s c)));
  i_ret : forall n r, In (HRet n r) h -> r <> RLost -> exists q, In (n, q, r) lin;
  i_ended : forall n, In n (ended h) -> In n (ad_used s);
  i_ended_nd : NoDup (ended h);
  i_order : forall l1 x l2 y l3, lin = l1 ++ x :: l2 ++ y :: l3 -> ~ ended_before h (lin_n y) (lin_n x) }.

(** What a step without new calls, results or answers keeps: everything but what is
    known about connections. *)
Lemma ainv_conn : forall dc c0 h s g lin c x, ainv dc c0 h s g lin -> a_conv (ad_conns s c) <= a_conv x ->
  (forall v q, In (v, q) (a_reqs x) -> In (v, q) (a_reqs (ad_conns s c))) -> NoDup (map fst (a_reqs x)) ->
  (forall m, In m (a_ress x) -> In m (a_ress (ad_conns s c))) ->
  (forall p, In p (a_pend x) -> exists p', In p' (a_pend (ad_conns s c)) /\ ap_call p = ap_call p' /\ ap_conv p = ap_conv p' /\
     forall r, ap_state p = SDone r -> ap_state p' = SDone r \/ exists k, In (ap_conv p, k, r) (a_ress (ad_conns s c))) ->
  NoDup (calls (a_pend x)) ->
  ainv dc c0 h (Adm (ad_conf s) (upd (ad_conns s) c x) (ad_used s)) g lin.
Proof.
  intros dc c0 h s g lin c x [] Cv Rq Nd Rs Pe Np.
  split; cbn [ad_conf ad_conns ad_used]; auto; intros d; destruct (Nat.eq_dec d c) as [->|N]; rewrite ?upd_same; rewrite ?(upd_other _ _ _ _ N); auto.
  all: try (intros v n q H; apply i_conv0 in H; lia).
  all: try (intros v k r I; eapply i_ress0; eauto; fail).
  - intros p I. destruct (Pe p I) as (p' & I' & E1 & E2 & Dn). destruct (i_pend0 _ _ I') as (q & G & D & U). exists q.
    rewrite E1, E2. split; auto. split; auto. intros r Hr. destruct (Dn r Hr) as [X|(k & X)]; [auto|].
    destruct (i_ress0 _ _ _ _ X) as (n1 & q1 & G1 & L1). rewrite E2 in G1. destruct (i_fun0 _ _ _ _ _ _ G G1) as [-> ->]. exact L1.
Qed.

Lemma app_snoc_inv : forall A (a b : list A) x y c, a ++ [y] = b ++ x :: c -> (c = [] /\ b = a /\ x = y) \/ exists c', c = c' ++ [y] /\ a = b ++ x :: c'.
Proof.
  intros A a b x y c E. destruct c as [|z c] using rev_ind.
  - left. apply app_inj_tail in E. destruct E as [-> ->]. auto.
  - right. exists c. clear IHc. change (a ++ [y] = b ++ (x :: c) ++ [z]) in E. rewrite app_assoc in E. apply app_inj_tail in E. destruct E as [-> ->]. auto.
Qed.

Lemma ended_before_call : forall h n q a b, ended_before (h ++ [HCall n q]) a b -> ended_before h a b \/ b = n.
Proof.
  intros h n q a b (h1 & r & h2 & q' & h3 & E & N). change (h1 ++ HRet a r :: h2 ++ HCall b q' :: h3) with (h1 ++ (HRet a r :: h2) ++ HCall b q' :: h3) in E.
  rewrite app_assoc in E. apply app_snoc_inv in E. destruct E as [(-> & _ & X)|(c & -> & E)].
  - injection X as <- _. now right.
  - left. exists h1, r, h2, q', c. split; auto. now rewrite <- app_assoc in E.
Qed.
Lemma ended_before_ret : forall h n r a b, ended_before (h ++ [HRet n r]) a b -> ended_before h a b.
Proof.
  intros h n r a b (h1 & r' & h2 & q' & h3 & E & N). change (h1 ++ HRet a r' :: h2 ++ HCall b q' :: h3) with (h1 ++ (HRet a r' :: h2) ++ HCall b q' :: h3) in E.
  rewrite app_assoc in E. apply app_snoc_inv in E. destruct E as [(-> & _ & X)|(c & -> & E)]; [discriminate|].
  exists h1, r', h2, q', c. split; auto. now rewrite <- app_assoc in E.
Qed.
Lemma ended_app : forall a b, ended (a ++ b) = ended a ++ ended b.
Proof. intros. apply flat_map_app. Qed.
Lemma In_ended : forall n h, In n (ended h) <-> exists r, In (HRet n r) h.
Proof.
  intros n h. unfold ended. rewrite in_flat_map. split.
  - intros (x & I & J). destruct x as [|m r]; [destruct J|]. destruct J as [<-|[]]. eauto.
  - intros (r & I). exists (HRet n r). split; auto. now left.
Qed.
Lemma NoDup_snoc : forall A (l : list A) x, NoDup l -> ~ In x l -> NoDup (l ++ [x]).
Proof. intros A l x N I. induction l as [|y l IH]; cbn; [constructor; auto; constructor|].
  inversion N; subst. constructor; [|apply IH; auto; intros K; apply I; now right].
  intros K. apply in_app_or in K. destruct K as [K|[<-|[]]]; [contradiction|]. apply I. now left. Qed.

Lemma ainv_ret : forall dc c0 h s g lin n r, ainv dc c0 h s g lin -> In n (ad_used s) -> ~ In n (ended h) ->
  (r <> RLost -> exists q, In (n, q, r) lin) -> (forall c p, In p (a_pend (ad_conns s c)) -> ap_call p <> n) ->
  ainv dc c0 (h ++ [HRet n r]) s g lin.
Proof.
  intros dc c0 h s g lin n r [] U E R P. split; auto.
  - intros c v m q G. apply in_or_app. left. eauto.
  - intros m q I. apply in_app_or in I. destruct I as [I|[I|[]]]; [eauto|discriminate].
  - intros c p I. destruct (i_pend0 c p I) as (q & G & D & N). exists q. split; auto. split; auto. rewrite ended_app. intros K.
    apply in_app_or in K. destruct K as [K|[K|[]]]; auto. apply (P c p I). auto.
  - intros m r' I. apply in_app_or in I. destruct I as [I|[[= <- <-]|[]]]; [eauto|exact R].
  - intros m I. rewrite ended_app in I. apply in_app_or in I. destruct I as [I|[<-|[]]]; auto.
  - rewrite ended_app. apply NoDup_snoc; auto.
  - intros l1 x l2 y l3 L K. apply ended_before_ret in K. eapply i_order0; eauto.
Qed.

Lemma ainv_called : forall dc c0 h s g lin n q, ainv dc c0 h s g lin -> ~ In n (ad_used s) ->
  ainv dc c0 (h ++ [HCall n q]) (Adm (ad_conf s) (ad_conns s) (n :: ad_used s)) g lin.
Proof.
  intros dc c0 h s g lin n q [] U.
  assert (En : ended (h ++ [HCall n q]) = ended h) by (rewrite ended_app; cbn; apply app_nil_r).
  split; auto; cbn [ad_conf ad_conns ad_used]; rewrite ?En; auto.
  - intros c v m q' G. right. eauto.
  - intros c v m q' G. apply in_or_app. left. eauto.
  - intros m q' I. apply in_app_or in I. destruct I as [I|[[= <- <-]|[]]]; [right; eauto|now left].
  - intros m r I N. apply in_app_or in I. destruct I as [I|[I|[]]]; [eauto|discriminate].
  - intros m I. right. auto.
  - intros l1 x l2 y l3 L K. apply ended_before_call in K. destruct K as [K|K]; [eapply i_order0; eauto|].
    destruct x as [[xn xq] xr]. cbn in K. subst xn. destruct (i_lin0 n xq xr) as (c & v & G); [subst lin; apply in_or_app; right; now left|].
    apply U. eauto.
Qed.

(** The message of a call just made. *)
Definition addg (g : nat -> list (nat * (nat * areq))) (c v n : nat) (q : areq) : nat -> list (nat * (nat * areq)) :=
  fun k => if k =? c then g k ++ [(v, (n, q))] else g k.
Lemma addg_In : forall g c v n q k v' n' q', calls_of (addg g c v n q) k v' n' q' <-> calls_of g k v' n' q' \/ (k = c /\ v' = v /\ n' = n /\ q' = q).
Proof.
  intros. unfold calls_of, addg. destruct (Nat.eqb_spec k c) as [->|N]; [|intuition congruence].
  rewrite in_app_iff. cbn. intuition (try congruence).
Qed.

Lemma ainv_send : forall dc c0 h s g lin c n q x', ainv dc c0 h s g lin -> In (HCall n q) h -> In n (ad_used s) ->
  (forall k v q', ~ calls_of g k v n q') -> ~ In n (ended h) ->
  x' = (let x := ad_conns s c in Aconn (S (a_conv x)) true (a_loop x) (a_srv x)
                      (if a_srv x then a_reqs x ++ [(a_conv x, q)] else a_reqs x) (a_ress x)
                      (a_pend x ++ [Apend n (a_conv x) (kind q) SSent])) ->
  ainv dc c0 h (Adm (ad_conf s) (upd (ad_conns s) c x') (ad_used s)) (addg g c (a_conv (ad_conns s c)) n q) lin.
Proof.
  intros dc c0 h s g lin c n q x' [] Hc Hu Hf He ->. cbn zeta. set (x := ad_conns s c). split; auto; cbn [ad_conf ad_conns ad_used].
  - intros k v m q' G. apply addg_In in G. destruct G as [G|(_ & _ & -> & _)]; eauto.
  - intros k v m q' k' v' q'' G G'. apply addg_In in G, G'. destruct G as [G|(-> & -> & -> & ->)], G' as [G'|(-> & -> & E & ->)]; eauto.
    + subst m. exfalso. eapply Hf; eauto.
    + exfalso. eapply Hf; eauto.
  - intros k v m q' G. apply addg_In in G. destruct (Nat.eq_dec k c) as [->|N]; rewrite ?upd_same, ?(upd_other _ _ _ _ N); cbn.
    + destruct G as [G|(_ & -> & _)]; [apply i_conv0 in G; unfold x; lia|lia].
    + destruct G as [G|(K & _)]; [eauto|congruence].
  - intros k v m q' m' q'' G G'. apply addg_In in G, G'. destruct G as [G|(-> & -> & -> & ->)], G' as [G'|(E & E' & -> & ->)]; eauto.
    + subst. apply i_conv0 in G. exfalso. revert G. apply Nat.lt_irrefl.
    + apply i_conv0 in G'. exfalso. revert G'. apply Nat.lt_irrefl.
  - intros k v m q' G. apply addg_In in G. destruct G as [G|(_ & _ & -> & ->)]; eauto.
  - intros m q' r I. destruct (i_lin0 _ _ _ I) as (k & v & G). exists k, v. apply addg_In. auto.
  - intros k v q' I. assert (D : In (v, q') (a_reqs (ad_conns s k)) \/ (k = c /\ v = a_conv x /\ q' = q)).
    { destruct (Nat.eq_dec k c) as [->|N]; [rewrite upd_same in I|rewrite (upd_other _ _ _ _ N) in I]; auto. cbn in I. fold x.
      destruct (a_srv x); auto. apply in_app_or in I. destruct I as [I|[[= <- <-]|[]]]; auto. }
    destruct D as [D|(-> & -> & ->)].
    + destruct (i_reqs0 _ _ _ D) as (m & G & L). exists m. split; auto. apply addg_In. auto.
    + exists n. split; [apply addg_In; auto|]. intros L. apply in_map_iff in L. destruct L as ([[m mq] mr] & E & L). cbn in E. subst m.
      destruct (i_lin0 _ _ _ L) as (k & v & G). eapply Hf; eauto.
  - intros k. destruct (Nat.eq_dec k c) as [->|N]; rewrite ?upd_same, ?(upd_other _ _ _ _ N); auto. cbn. destruct (a_srv x); [|apply i_reqs_nd0].
    rewrite map_app. apply NoDup_snoc; [apply i_reqs_nd0|]. intros I. apply in_map_iff in I. destruct I as ([v q'] & E & I).
    destruct (i_reqs0 _ _ _ I) as (m & G & _). apply i_conv0 in G. unfold x in E. cbn in E. lia.
  - intros k v k' r I. assert (D : In (v, k', r) (a_ress (ad_conns s k))).
    { destruct (Nat.eq_dec k c) as [->|N]; [rewrite upd_same in I|rewrite (upd_other _ _ _ _ N) in I]; auto. }
    destruct (i_ress0 _ _ _ _ D) as (m & q' & G & L). exists m, q'. split; auto. apply addg_In. auto.
  - intros k p I. assert (D : In p (a_pend (ad_conns s k)) \/ (k = c /\ p = Apend n (a_conv x) (kind q) SSent)).
    { destruct (Nat.eq_dec k c) as [->|N]; [rewrite upd_same in I|rewrite (upd_other _ _ _ _ N) in I]; auto. cbn in I.
      apply in_app_or in I. destruct I as [I|[<-|[]]]; auto. }
    destruct D as [D|(-> & ->)].
    + destruct (i_pend0 _ _ D) as (q' & G & A & B). exists q'. split; auto. apply addg_In. auto.
    + exists q. cbn. split; [apply addg_In; auto|]. split; auto. discriminate.
  - intros k. destruct (Nat.eq_dec k c) as [->|N]; rewrite ?upd_same, ?(upd_other _ _ _ _ N); auto. cbn. unfold calls. rewrite map_app.
    apply NoDup_snoc; [apply i_pend_nd0|]. intros I. apply in_map_iff in I. destruct I as (p & E & I).
    destruct (i_pend0 _ _ I) as (q' & G & _). rewrite E in G. eapply Hf; eauto.
Qed.

Lemma ainv_serve : forall dc c0 h s g lin c v q l (sent : bool) conf r, ainv dc c0 h s g lin -> a_reqs (ad_conns s c) = (v, q) :: l ->
  serve dc (ad_conf s) q = (conf, r) ->
  exists lin', ainv dc c0 h (Adm conf (upd (ad_conns s) c
                  (let x := ad_conns s c in if sent
                   then Aconn (a_conv x) (a_open x) (a_loop x) (a_srv x) l
                          (if a_open x then a_ress x ++ [(v, kind q, r)] else a_ress x) (a_pend x)
                   else Aconn (a_conv x) (a_open x) (a_loop x) false [] (a_ress x) (a_pend x))) (ad_used s)) g lin'.
Proof.
  intros dc c0 h s g lin c v q l sent conf r [] Rq Sv. destruct (i_reqs0 c v q) as (n & G & NL); [rewrite Rq; now left|].
  exists (lin ++ [(n, q, r)]). cbn zeta. set (x := ad_conns s c).
  assert (Sub : forall m mq mr, In (m, mq, mr) lin -> In (m, mq, mr) (lin ++ [(n, q, r)])) by (intros; apply in_or_app; now left).
  split; cbn [ad_conf ad_conns ad_used]; auto.
  - eapply obo_snoc; eauto.
  - rewrite map_app. apply NoDup_snoc; auto.
  - intros k v' m q' H. destruct (Nat.eq_dec k c) as [->|N]; rewrite ?upd_same, ?(upd_other _ _ _ _ N); [destruct sent; cbn|]; eapply i_conv0; eauto.
  - intros m mq mr I. apply in_app_or in I. destruct I as [I|[[= <- <- <-]|[]]]; eauto.
  - intros k v' q' I.
    assert (D : In (v', q') (a_reqs (ad_conns s k)) /\ (k = c -> In (v', q') l)).
    { destruct (Nat.eq_dec k c) as [->|N]; [rewrite upd_same in I|rewrite (upd_other _ _ _ _ N) in I; split; [auto|congruence]].
      destruct sent; cbn in I; [|destruct I]. split; auto. rewrite Rq. now right. }
    destruct D as [D D']. destruct (i_reqs0 _ _ _ D) as (m & G' & NL'). exists m. split; auto. rewrite map_app. intros I'.
    apply in_app_or in I'. destruct I' as [I'|[I'|[]]]; auto. cbn in I'. subst m. destruct (i_uniq0 _ _ _ _ _ _ _ G G') as (<- & <- & _).
    specialize (D' eq_refl). assert (N := i_reqs_nd0 c). rewrite Rq in N. cbn in N. inversion N as [|? ? N1 _]; subst. apply N1.
    change v with (fst (v, q')). now apply in_map.
  - intros k. destruct (Nat.eq_dec k c) as [->|N]; rewrite ?upd_same, ?(upd_other _ _ _ _ N); auto. destruct sent; cbn; [|constructor].
    assert (N := i_reqs_nd0 c). rewrite Rq in N. cbn in N. inversion N; auto.
  - intros k v' k' r' I.
    assert (D : In (v', k', r') (a_ress (ad_conns s k)) \/ (k = c /\ v' = v /\ r' = r)).
    { destruct (Nat.eq_dec k c) as [->|N]; [rewrite upd_same in I|rewrite (upd_other _ _ _ _ N) in I; auto].
      destruct sent; cbn in I; [|auto]. fold x. destruct (a_open x); auto. apply in_app_or in I. destruct I as [I|[[= <- <- <-]|[]]]; auto. }
    destruct D as [D|(-> & -> & ->)].
    + destruct (i_ress0 _ _ _ _ D) as (m & mq & A & B). eauto.
    + exists n, q. split; auto. apply in_or_app. right. now left.
  - intros k p I. assert (D : In p (a_pend (ad_conns s k))).
    { destruct (Nat.eq_dec k c) as [->|N]; [rewrite upd_same in I|rewrite (upd_other _ _ _ _ N) in I; auto]. destruct sent; auto. }
    destruct (i_pend0 _ _ D) as (q' & A & B & C). exists q'. auto.
  - intros k. destruct (Nat.eq_dec k c) as [->|N]; rewrite ?upd_same, ?(upd_other _ _ _ _ N); auto. destruct sent; apply i_pend_nd0.
  - intros m mr I N. destruct (i_ret0 _ _ I N) as (mq & L). eauto.
  - intros l1 a l2 b l3 E K. change (l1 ++ a :: l2 ++ b :: l3) with (l1 ++ (a :: l2) ++ b :: l3) in E. rewrite app_assoc in E.
    apply app_snoc_inv in E. destruct E as [(-> & Ea & ->)|(c' & -> & E)].
    + cbn in K. destruct K as (h1 & r' & h2 & q' & h3 & -> & N). destruct (i_ret0 n r') as (mq & L); auto; [apply in_or_app; right; now left|].
      apply NL. change n with (lin_n (n, mq, r')). now apply in_map.
    + rewrite <- app_assoc in E. eapply i_order0; eauto.
Qed.

Lemma NoDup_reqs_tail : forall (x : nat * areq) l, NoDup (map fst (x :: l)) -> NoDup (map fst l).
Proof. intros x l H. now inversion H. Qed.

Lemma ainv_step : forall dc c0 h s g lin e s' o, ainv dc c0 h s g lin -> astep dc s e = Some (s', o) ->
  exists g' lin', ainv dc c0 (h ++ o) s' g' lin'.
Proof.
  intros dc c0 h s g lin e s' o I H.
  assert (Keep : forall (c : nat) p, In p (a_pend (ad_conns s c)) -> exists p', In p' (a_pend (ad_conns s c)) /\ ap_call p = ap_call p' /\ ap_conv p = ap_conv p' /\
     forall r, ap_state p = SDone r -> ap_state p' = SDone r \/ exists k, In (ap_conv p, k, r) (a_ress (ad_conns s c))) by eauto 10.
  assert (Del : forall (c n : nat) p, In p (del_call n (a_pend (ad_conns s c))) -> exists p', In p' (a_pend (ad_conns s c)) /\ ap_call p = ap_call p' /\ ap_conv p = ap_conv p' /\
     forall r, ap_state p = SDone r -> ap_state p' = SDone r \/ exists k, In (ap_conv p, k, r) (a_ress (ad_conns s c)))
    by (intros c n p J; apply In_del in J; destruct J; eauto 10).
  assert (Ret : forall c n p r, find_call n (a_pend (ad_conns s c)) = Some p -> (ap_state p = SDone r \/ r = RLost) ->
     exists g' lin', ainv dc c0 (h ++ [HRet n r]) (Adm (ad_conf s) (upd (ad_conns s) c (with_pend (ad_conns s c) (del_call n (a_pend (ad_conns s c))))) (ad_used s)) g' lin').
  { intros c n p r F St. exists g, lin. apply find_call_In in F. destruct F as [J <-]. destruct (i_pend _ _ _ _ _ _ I _ _ J) as (q & G & D & N).
    apply ainv_ret.
    - apply ainv_conn; cbn; auto; [apply (i_reqs_nd _ _ _ _ _ _ I)|apply Del|apply NoDup_del; apply (i_pend_nd _ _ _ _ _ _ I)].
    - exact (i_used _ _ _ _ _ _ I _ _ _ _ G).
    - exact N.
    - intros X. destruct St as [St|St]; [eauto|congruence].
    - intros k p' J'. cbn in J'. destruct (Nat.eq_dec k c) as [->|Nk]; [rewrite upd_same in J'; cbn in J'; apply In_del in J'; tauto|].
      rewrite (upd_other _ _ _ _ Nk) in J'. destruct (i_pend _ _ _ _ _ _ I _ _ J') as (q' & G' & _). intros E. rewrite E in G'.
      destruct (i_uniq _ _ _ _ _ _ I _ _ _ _ _ _ _ G G'). congruence. }
  assert (Fin : forall c ress, (forall m, In m ress -> In m (a_ress (ad_conns s c))) ->
     ainv dc c0 h (Adm (ad_conf s) (upd (ad_conns s) c (finish_loop (Aconn (a_conv (ad_conns s c)) (a_open (ad_conns s c)) (a_loop (ad_conns s c)) (a_srv (ad_conns s c)) (a_reqs (ad_conns s c)) ress (a_pend (ad_conns s c))))) (ad_used s)) g lin).
  { intros c ress Sub. apply ainv_conn; cbn; auto; [apply (i_reqs_nd _ _ _ _ _ _ I)|intros m []| |rewrite calls_fail; apply (i_pend_nd _ _ _ _ _ _ I)].
    intros p J. apply In_fail in J. destruct J as (p' & J & E1 & E2 & _ & St). exists p'. split; auto. split; auto. split; auto.
    intros r Hr. destruct St as [St| ->]; [congruence|auto]. }
  destruct e as [c n q|c n|c sent|c|c|c|c|c n|c n]; cbn [astep] in H.
  - destruct (existsb (Nat.eqb n) (ad_used s)) eqn:U; [discriminate|].
    assert (Fr : ~ In n (ad_used s)).
    { intros K. assert (X : existsb (Nat.eqb n) (ad_used s) = true) by (apply existsb_exists; exists n; split; auto; apply Nat.eqb_refl). congruence. }
    assert (I2 := ainv_called _ _ _ _ _ _ n q I Fr). destruct (a_open (ad_conns s c)) eqn:Op; injection H as <- <-.
    + eexists. exists lin. refine (ainv_send _ _ _ _ _ _ c n q _ I2 _ _ _ _ eq_refl).
      * apply in_or_app. right. now left.
      * now left.
      * intros k v q' G. apply Fr. exact (i_used _ _ _ _ _ _ I _ _ _ _ G).
      * rewrite ended_app. cbn. rewrite app_nil_r. intros K. apply Fr. exact (i_ended _ _ _ _ _ _ I _ K).
    + exists g, lin. change [HCall n q; HRet n RLost] with ([HCall n q] ++ [HRet n RLost]). rewrite app_assoc. apply ainv_ret; auto.
      * now left.
      * rewrite ended_app. cbn. rewrite app_nil_r. intros K. apply Fr. exact (i_ended _ _ _ _ _ _ I _ K).
      * congruence.
      * intros k p J E. cbn in J. destruct (i_pend _ _ _ _ _ _ I _ _ J) as (q' & G & _). rewrite E in G. apply Fr. exact (i_used _ _ _ _ _ _ I _ _ _ _ G).
  - destruct (find_call n (a_pend (ad_conns s c))) as [p|] eqn:F; [|discriminate]. destruct (ap_state p) eqn:St; try discriminate.
    destruct (a_open (ad_conns s c)); injection H as <- <-; [|eapply Ret; eauto].
    exists g, lin. rewrite app_nil_r. apply ainv_conn; cbn; auto; [apply (i_reqs_nd _ _ _ _ _ _ I)| |rewrite calls_set; apply (i_pend_nd _ _ _ _ _ _ I)].
    intros p1 J. apply In_set in J. destruct J as (p' & J & E1 & E2 & _ & X). exists p'. split; auto. split; auto. split; auto.
    intros r Hr. destruct X as [[_ X]|[_ ->]]; [congruence|auto].
  - destruct (a_reqs (ad_conns s c)) as [|[v q] l] eqn:Rq; [discriminate|]. destruct (serve dc (ad_conf s) q) as [conf r] eqn:Sv.
    injection H as <- <-. rewrite app_nil_r. exists g. exact (ainv_serve _ _ _ _ _ _ c v q l sent conf r I Rq Sv).
  - injection H as <- <-. rewrite app_nil_r. exists g, lin. apply ainv_conn; cbn; auto; [intros v q []|constructor|apply (i_pend_nd _ _ _ _ _ _ I)].
  - destruct (a_ress (ad_conns s c)) as [|[[v k] r] l] eqn:Rs; [discriminate|]. destruct (a_open (ad_conns s c) && a_loop (ad_conns s c)); [|discriminate].
    injection H as <- <-. rewrite app_nil_r. exists g, lin. unfold deliver. cbn [a_pend].
    assert (Sub : forall m, In m l -> In m (a_ress (ad_conns s c))) by (intros m J; rewrite Rs; now right).
    destruct (find_future v (a_pend (ad_conns s c))) as [p|] eqn:F; [|now apply Fin].
    apply find_future_In in F. destruct F as (J & Ev & _). destruct (ap_state p) eqn:St; try (now apply Fin).
    destruct (kind_eqb (ap_kind p) k); [|now apply Fin]. unfold with_pend. cbn.
    apply ainv_conn; cbn; auto; [apply (i_reqs_nd _ _ _ _ _ _ I)| |rewrite calls_set; apply (i_pend_nd _ _ _ _ _ _ I)].
    intros p1 J1. apply In_set in J1. destruct J1 as (p' & J1 & E1 & E2 & _ & X). exists p'. split; auto. split; auto. split; auto.
    intros r1 Hr. destruct X as [[X1 X]|[_ ->]]; [|auto]. right. exists k. rewrite X in Hr. injection Hr as <-. rewrite Rs. left.
    destruct (i_pend _ _ _ _ _ _ I _ _ J) as (q & G & _). destruct (i_pend _ _ _ _ _ _ I _ _ J1) as (q1 & G1 & _). rewrite X1 in G1.
    destruct (i_uniq _ _ _ _ _ _ I _ _ _ _ _ _ _ G G1) as (_ & E & _). congruence.
  - injection H as <- <-. rewrite app_nil_r. exists g, lin. apply ainv_conn; cbn; auto; [apply (i_reqs_nd _ _ _ _ _ _ I)|intros m []|apply (i_pend_nd _ _ _ _ _ _ I)].
  - destruct (a_open (ad_conns s c)) eqn:Op; [discriminate|]. destruct (a_loop (ad_conns s c)) eqn:Lo; [|discriminate]. injection H as <- <-. rewrite app_nil_r. exists g, lin.
    exact (Fin c (a_ress (ad_conns s c)) (fun m J => J)).
  - destruct (find_call n (a_pend (ad_conns s c))) as [p|] eqn:F; [|discriminate]. destruct (ap_state p) eqn:St; try discriminate; injection H as <- <-; eapply Ret; eauto.
  - destruct (find_call n (a_pend (ad_conns s c))) as [p|] eqn:F; [|discriminate]. injection H as <- <-. rewrite app_nil_r. exists g, lin.
    apply ainv_conn; cbn; auto; [apply (i_reqs_nd _ _ _ _ _ _ I)|apply Del|apply NoDup_del; apply (i_pend_nd _ _ _ _ _ _ I)].
Qed.

Lemma ainv_init : forall dc c0, ainv dc c0 [] (adm_init c0) (fun _ => []) [].
Proof.
  intros dc c0. split; cbn; try (intros; contradiction); try (intros; constructor); try constructor.
  intros l1 x l2 y l3 E. destruct l1; discriminate.
Qed.

Lemma ainv_run : forall dc c0 tr s, aruns dc (adm_init c0) tr s -> exists g lin, ainv dc c0 (history tr) s g lin.
Proof.
  intros dc c0. apply (aruns_ind_r dc (adm_init c0) (fun tr s => exists g lin, ainv dc c0 (history tr) s g lin)).
  - exists (fun _ => []), []. apply ainv_init.
  - intros tr s e o s' _ (g & lin & I) H. rewrite history_snoc. eapply ainv_step; eauto.
Qed.

Lemma final_C62 : forall dc c0 tr s, aruns dc (adm_init c0) tr s -> linearizable dc c0 (history tr).
Proof.
  intros dc c0 tr s R. destruct (ainv_run _ _ _ _ R) as (g & lin & I). exists lin, (ad_conf s). destruct I. split; auto. split; auto.
  split; [|split; auto]. intros n q r J. destruct (i_lin0 _ _ _ J) as (c & v & G). eauto.
Qed.

Lemma final_C62_once : forall dc c0 tr s, aruns dc (adm_init c0) tr s -> NoDup (ended (history tr)).
Proof. intros dc c0 tr s R. destruct (ainv_run _ _ _ _ R) as (g & lin & I). exact (i_ended_nd _ _ _ _ _ _ I). Qed.
