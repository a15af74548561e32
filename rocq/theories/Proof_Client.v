(** Eventer client: bookkeeping of requests (C40). *)
From Coq Require Import String Bool ZArith Arith Lia List.
From Verif Require Import Base Model_Types Model_Eventer Spec_Eventer Proof_Eventer Proof_Eventer2 Model_Client Spec_Client.
Import ListNotations.
Open Scope string_scope.
Open Scope list_scope.
Open Scope nat_scope.

Lemma couts_snoc : forall tr o l, couts (tr ++ [(o, l)]) = couts tr ++ l.
Proof. intros. unfold couts. rewrite flat_map_app. cbn. now rewrite app_nil_r. Qed.
Lemma csent_snoc : forall tr o l, csent (tr ++ [(o, l)]) = csent tr ++ csent_in l.
Proof. intros. unfold csent. rewrite couts_snoc. unfold csent_in. apply flat_map_app. Qed.
Lemma received_snoc : forall tr o l, received (tr ++ [(o, l)]) = received tr ++ match o with CMsg m => [m] | _ => [] end.
Proof. intros. unfold received. rewrite flat_map_app. cbn. now rewrite app_nil_r. Qed.
Lemma shut_snoc : forall tr i, shut (tr ++ [i]) = shut tr || shuts i.
Proof. intros. unfold shut. rewrite existsb_app. cbn. now rewrite orb_false_r. Qed.
Lemma responded_snoc : forall c tr i, responded c (tr ++ [i]) = responded c tr || responds c i.
Proof. intros. unfold responded. rewrite existsb_app. cbn. now rewrite orb_false_r. Qed.

Lemma fins_snoc : forall tr o l, fins (tr ++ [(o, l)]) = fins tr ++ fin_in l.
Proof. intros. unfold fins. rewrite couts_snoc. unfold fin_in. apply flat_map_app. Qed.

(** The story of a pending request. *)
Definition pended (n conv : nat) (st : rstate) (tr : list citem) : Prop :=
  exists a q b, tr = a ++ (CRequest n q, [CSent (req_msg conv q)]) :: b /\ wants q = true /\ existsb (ends n) b = false /\
    match st with
    | RSent => True
    | RWait => exists b1 b2, b = b1 ++ (CWait n, []) :: b2 /\ responded conv b2 = false
    | RDone r => exists b1 b2 m l b3, b = b1 ++ (CWait n, []) :: b2 ++ (CMsg m, l) :: b3 /\ responded conv b2 = false /\ response m = Some (conv, r)
    | RFail => shut tr = true
    end.

Lemma ends_snoc : forall n (b : list citem) i, existsb (ends n) b = false -> ends n i = false -> existsb (ends n) (b ++ [i]) = false.
Proof. intros n b i H1 H2. rewrite existsb_app. apply orb_false_iff. split; auto. cbn. now rewrite H2. Qed.

Lemma pended_snoc : forall n conv st tr i, pended n conv st tr -> ends n i = false -> (st = RWait -> responds conv i = false) ->
    pended n conv st (tr ++ [i]).
Proof.
  intros n conv st tr i (a & q & b & -> & Hw & He & Hs) Hi Hr. exists a, q, (b ++ [i]). split; [now rewrite <- app_assoc|]. split; auto.
  split; [now apply ends_snoc|]. destruct st; auto.
  - destruct Hs as (b1 & b2 & -> & H2). exists b1, (b2 ++ [i]). split; [now rewrite <- app_assoc|]. rewrite responded_snoc, H2. cbn. auto.
  - destruct Hs as (b1 & b2 & m & l & b3 & -> & H2 & H3). exists b1, b2, m, l, (b3 ++ [i]). split; auto.
    rewrite <- app_assoc. cbn. now rewrite <- app_assoc.
  - rewrite shut_snoc, Hs. reflexivity.
Qed.

Lemma pended_new : forall n conv q tr, wants q = true -> pended n conv RSent (tr ++ [(CRequest n q, [CSent (req_msg conv q)])]).
Proof. intros. exists tr, q, []. auto. Qed.
Lemma pended_wait : forall n conv tr, pended n conv RSent tr -> pended n conv RWait (tr ++ [(CWait n, [])]).
Proof.
  intros n conv tr (a & q & b & -> & Hw & He & _). exists a, q, (b ++ [(CWait n, [])]). split; [now rewrite <- app_assoc|]. split; auto.
  split; [now apply ends_snoc|]. exists b, []. auto.
Qed.
Lemma pended_done : forall n conv tr m l r, pended n conv RWait tr -> response m = Some (conv, r) -> l = [] -> pended n conv (RDone r) (tr ++ [(CMsg m, l)]).
Proof.
  intros n conv tr m l r (a & q & b & -> & Hw & He & b1 & b2 & -> & H2) Hr ->. exists a, q, ((b1 ++ (CWait n, []) :: b2) ++ [(CMsg m, [])]).
  split; [now rewrite <- app_assoc|]. split; auto. split; [now apply ends_snoc|]. exists b1, b2, m, [], []. split; auto.
  now rewrite <- app_assoc.
Qed.
Lemma pended_fail : forall n conv tr i, pended n conv RWait tr -> ends n i = false -> shut (tr ++ [i]) = true -> pended n conv RFail (tr ++ [i]).
Proof.
  intros n conv tr i (a & q & b & E & Hw & He & _) Hi Hs. exists a, q, (b ++ [i]). rewrite E in *. split; [now rewrite <- app_assoc|]. split; auto.
  split; auto. now apply ends_snoc.
Qed.

Lemma nodup_snoc : forall (A : Type) (l : list A) x, NoDup l -> ~ In x l -> NoDup (l ++ [x]).
Proof. intros A l x H Hx. apply NoDup_app_intro; auto; [repeat constructor; auto|]. intros y Hy [-> |[]]. auto. Qed.

Record cbook (tr : list citem) (s : cstate) : Prop := {
  kb_conv : forall m, In m (csent tr) -> is_request m = true -> conv_of m < c_conv s;
  kb_convs : NoDup (map conv_of (filter is_request (csent tr)));
  kb_used : forall n q l, In (CRequest n q, l) tr -> In n (c_used s);
  kb_in : forall x, In x (c_reqs s) -> In (p_call x) (c_used s) /\ p_conv x < c_conv s;
  kb_calls : NoDup (map p_call (c_reqs s));
  kb_pconvs : NoDup (map p_conv (c_reqs s));
  kb_pend : forall x, In x (c_reqs s) -> pended (p_call x) (p_conv x) (p_state x) tr;
  kb_out : forall n, outstanding n tr -> In n (map p_call (c_reqs s));
  kb_fins : NoDup (fins tr);
  kb_fin : forall n, In n (fins tr) -> In n (c_used s) /\ ~ In n (map p_call (c_reqs s)) }.

Lemma outstanding_snoc : forall n tr i, outstanding n (tr ++ [i]) ->
    (outstanding n tr /\ ends n i = false) \/ (exists q l, i = (CRequest n q, l) /\ ends n i = false).
Proof.
  intros n tr i (a & q & l & b & E & H1 & H2). destruct b as [|x b] using rev_ind.
  - apply app_inj_tail in E as [_ ->]. right. eauto.
  - clear IHb. rewrite app_comm_cons, app_assoc in E. apply app_inj_tail in E as [-> ->]. rewrite existsb_app in H2. cbn in H2.
    apply orb_false_iff in H2 as [H2 H3]. rewrite orb_false_r in H3. left. split; auto. exists a, q, l, b. auto.
Qed.

(** Steps that keep requests as they are, up to their state. *)
Lemma book_map : forall tr s s' o l (f : pend -> pend), cbook tr s ->
    c_reqs s' = map f (c_reqs s) -> c_used s' = c_used s -> c_conv s' = c_conv s ->
    (forall x, p_call (f x) = p_call x /\ p_conv (f x) = p_conv x) ->
    (forall x, In x (c_reqs s) -> pended (p_call x) (p_conv x) (p_state x) tr -> pended (p_call x) (p_conv x) (p_state (f x)) (tr ++ [(o, l)])) ->
    filter is_request (csent_in l) = [] -> fin_in l = [] -> (forall n q, o <> CRequest n q) ->
    cbook (tr ++ [(o, l)]) s'.
Proof.
  intros tr s s' o l f B Er Eu Ec Hf Hp Hs Hfi Hn.
  assert (E1 : map p_call (c_reqs s') = map p_call (c_reqs s)) by (rewrite Er, map_map; apply map_ext; intros; apply Hf).
  assert (E2 : map p_conv (c_reqs s') = map p_conv (c_reqs s)) by (rewrite Er, map_map; apply map_ext; intros; apply Hf).
  constructor; rewrite ?E1, ?E2, ?Eu, ?Ec, ?fins_snoc, ?Hfi, ?app_nil_r.
  - intros m Hm Hr. rewrite csent_snoc in Hm. apply in_app_or in Hm as [Hm|Hm]; [apply (kb_conv _ _ B); auto|].
    assert (In m (filter is_request (csent_in l))) by now apply filter_In. rewrite Hs in H. destruct H.
  - rewrite csent_snoc, filter_app, Hs, app_nil_r. apply B.
  - intros n q k Hi. apply in_app_or in Hi as [Hi|[Hi|[]]]; [eapply kb_used; eauto|]. injection Hi as -> _. exfalso. eapply Hn; eauto.
  - intros x Hx. rewrite Er in Hx. apply in_map_iff in Hx as (y & <- & Hy). destruct (Hf y) as [-> ->]. now apply (kb_in _ _ B).
  - apply B.
  - apply B.
  - intros x Hx. rewrite Er in Hx. apply in_map_iff in Hx as (y & <- & Hy). destruct (Hf y) as [-> ->]. apply Hp; auto. now apply (kb_pend _ _ B).
  - intros n Ho. apply outstanding_snoc in Ho as [[Ho _]|(q & k & E & _)]; [now apply (kb_out _ _ B)|]. injection E as -> _. exfalso. eapply Hn; eauto.
  - apply B.
  - apply B.
Qed.

Lemma find_req_in : forall n l x, find_req n l = Some x -> In x l /\ p_call x = n.
Proof. intros n l x H. apply find_some in H as [H1 H2]. apply Nat.eqb_eq in H2. auto. Qed.

Lemma del_nodup : forall (f : pend -> nat) n l, NoDup (map f l) -> NoDup (map f (del_req n l)).
Proof.
  intros f n l. unfold del_req. induction l as [|x r IH]; cbn; intros H; auto. inversion_clear H as [|? ? H1 H2].
  destruct (negb (n =? p_call x)); cbn; auto. constructor; auto. intros X. apply H1. apply in_map_iff in X as (y & E & Hy).
  apply filter_In in Hy as [Hy _]. apply in_map_iff. exists y. auto.
Qed.

(** The end of a pending request. *)
Lemma book_del : forall tr s o l n, cbook tr s -> In n (map p_call (c_reqs s)) ->
    (forall x, In x (c_reqs s) -> p_call x <> n -> ends (p_call x) (o, l) = false) -> ends n (o, l) = true ->
    (o = CWait n \/ o = CResume n \/ o = CCancel n) -> csent_in l = [] -> fin_in l = [] \/ fin_in l = [n] ->
    cbook (tr ++ [(o, l)]) (c_with_reqs s (del_req n (c_reqs s))).
Proof.
  intros tr s o l n B Hin He Hen Ho Hs Hf.
  assert (Hsub : forall x, In x (del_req n (c_reqs s)) -> In x (c_reqs s) /\ p_call x <> n).
  { intros x Hx. apply filter_In in Hx as [Hx H2]. split; auto. intros E. rewrite E, Nat.eqb_refl in H2. discriminate. }
  assert (Hr : forall c, responds c (o, l) = false) by (intros c; destruct Ho as [-> |[-> | ->]]; reflexivity).
  pose proof (fun f => del_nodup f n (c_reqs s)) as Hnd.
  assert (Hu : forall m, In m (map p_call (c_reqs s)) -> In m (c_used s)).
  { intros m Hm. apply in_map_iff in Hm as (x & <- & Hx). now apply (kb_in _ _ B). }
  constructor; cbn [c_with_reqs c_reqs c_used c_conv]; rewrite ?csent_snoc, ?Hs, ?app_nil_r; try apply B.
  - intros k q l' Hi. apply in_app_or in Hi as [Hi|[Hi|[]]]; [eapply kb_used; eauto|]. injection Hi as E _. destruct Ho as [Ho|[Ho|Ho]]; congruence.
  - intros x Hx. apply Hsub in Hx as [Hx _]. now apply (kb_in _ _ B).
  - apply Hnd, B.
  - apply Hnd, B.
  - intros x Hx. apply Hsub in Hx as [Hx Hn]. apply pended_snoc; auto. now apply (kb_pend _ _ B).
  - intros k Hk. apply outstanding_snoc in Hk as [[Hk Hk2]|(q & l' & E & _)]; [|injection E as E _; destruct Ho as [Ho|[Ho|Ho]]; congruence].
    assert (k <> n) by congruence. apply (kb_out _ _ B) in Hk. apply in_map_iff in Hk as (x & <- & Hx). apply in_map_iff. exists x. split; auto.
    apply filter_In. split; auto. apply negb_true_iff, Nat.eqb_neq. auto.
  - rewrite fins_snoc. destruct Hf as [-> | ->]; [rewrite app_nil_r; apply B|]. apply nodup_snoc; [apply B|]. intros X. apply (kb_fin _ _ B) in X. tauto.
  - intros k Hk. rewrite fins_snoc in Hk. apply in_app_or in Hk as [Hk|Hk].
    + apply (kb_fin _ _ B) in Hk as [H1 H2]. split; auto. intros X. apply H2. apply in_map_iff in X as (y & E & Hy). apply Hsub in Hy as [Hy _]. apply in_map_iff. eauto.
    + assert (k = n) by (destruct Hf as [E|E]; rewrite E in Hk; [destruct Hk|destruct Hk as [|[]]; auto]). subst k. split; auto.
      intros X. apply in_map_iff in X as (y & E & Hy). apply Hsub in Hy as [_ Hy]. auto.
Qed.

Lemma started_snoc : forall tr i, started (tr ++ [i]) = started tr || starts i.
Proof. intros. unfold started. rewrite existsb_app. cbn. now rewrite orb_false_r. Qed.

Record cloop (tr : list citem) (s : cstate) : Prop := {
  kl_end : c_loop s = LEnd -> c_open s = false;
  kl_on : match c_loop s with LInit | LNew => started tr = false | LEnd => True | _ => started tr = true end;
  kl_wait : started tr = true -> c_loop s = LEnd -> forall x, In x (c_reqs s) -> p_state x <> RWait;
  kl_shut : shut tr = negb (c_open s);
  kl_init : c_loop s = LInit -> c_reqs s = [] }.

Ltac cstepd H :=
  unfold cexec in H;
  repeat match type of H with
         | context [match ?x with _ => _ end] => let E := fresh "E" in destruct x eqn:E; try discriminate
         end;
  try (injection H as <- <-).

Lemma finish_wait : forall s x, In x (c_reqs (finish s)) -> p_state x <> RWait.
Proof. intros s x H. cbn in H. apply in_map_iff in H as (y & <- & _). destruct (p_state y) eqn:E; cbn; congruence. Qed.
Lemma del_wait : forall n l x, In x (del_req n l) -> In x l.
Proof. intros n l x H. now apply filter_In in H. Qed.

Lemma cloop_step : forall tr s o s' l, cloop tr s -> cexec s o = Some (s', l) -> cloop (tr ++ [(o, l)]) s'.
Proof.
  intros tr s o s' l [K1 K2 K3 K4 K5] H.
  cstepd H; constructor; rewrite ?shut_snoc, ?started_snoc.
  all: cbn [finish resolve c_with_loop c_with_reqs c_with_status c_loop c_open c_reqs c_status shuts starts fst snd existsb orb negb].
  all: rewrite ?orb_false_r, ?orb_true_r.
  all: try discriminate.
  all: try solve [first [exact K4 | exact K1 | exact K2 | exact K3 | exact K5 | reflexivity]].
  all: try solve [rewrite K4; match goal with E : c_open _ = _ |- _ => rewrite E; reflexivity end].
  all: try solve [match goal with E : c_loop _ = _ |- _ => rewrite E in *; auto end].
  all: try solve [match goal with E : c_loop _ = _ |- _ => rewrite E in *; congruence end].
  all: try solve [intros _ _ x Hx; exact (finish_wait _ x Hx)].
  all: try solve [intros X; rewrite (K5 X); reflexivity].
  all: try solve [intros Ha Hb x Hx; apply (K3 Ha Hb); exact (del_wait _ _ _ Hx)].
  all: try solve [intros _; assumption].
  all: try solve [match goal with E : c_open _ = _ |- _ => rewrite E; auto end].
  - intros Ha. congruence.
  - intros _ _ x Hx. apply in_app_or in Hx as [Hx|[<-|[]]]; [|discriminate]. specialize (K1 eq_refl). discriminate.
  - intros _ Hb. specialize (K1 Hb). discriminate.
Qed.

(** A new request. *)
Lemma book_request : forall tr s s' q l n, cbook tr s -> ~ In n (c_used s) -> c_used s' = c_used s ++ [n] ->
    (l = [CSent (req_msg (c_conv s) q)] /\ wants q = true /\ c_conv s' = S (c_conv s) /\ c_reqs s' = c_reqs s ++ [Pend n (c_conv s) RSent]) \/
    (l = [CSent (req_msg (c_conv s) q); CReturned n] /\ c_conv s' = S (c_conv s) /\ c_reqs s' = c_reqs s) \/
    (l = [CError n] /\ c_conv s' = c_conv s /\ c_reqs s' = c_reqs s) ->
    cbook (tr ++ [(CRequest n q, l)]) s'.
Proof.
  intros tr s s' q l n B Hn Eu Hc.
  assert (Hq : is_request (req_msg (c_conv s) q) = true /\ conv_of (req_msg (c_conv s) q) = c_conv s) by (destruct q; auto). destruct Hq as [Hq1 Hq2].
  assert (He : forall m, m <> n -> ends m (CRequest n q, l) = false).
  { intros m Hm. assert (Hb : (n =? m) = false) by (apply Nat.eqb_neq; auto).
    destruct Hc as [(-> & _)|[(-> & _)|(-> & _)]]; cbn; rewrite ?Hb; auto. }
  assert (Hle : c_conv s <= c_conv s') by (destruct Hc as [(_ & _ & -> & _)|[(_ & -> & _)|(_ & -> & _)]]; lia).
  assert (Hu : forall x, In x (c_reqs s) -> p_call x <> n). { intros x Hx E. apply (kb_in _ _ B) in Hx as [Hx _]. congruence. }
  assert (Hr : forall x, In x (c_reqs s') -> In x (c_reqs s) \/ x = Pend n (c_conv s) RSent /\ wants q = true /\ l = [CSent (req_msg (c_conv s) q)] /\ c_conv s' = S (c_conv s)).
  { intros x Hx. destruct Hc as [(E & Hw & Ec & Er)|[(_ & _ & Er)|(_ & _ & Er)]]; rewrite Er in Hx; auto. apply in_app_or in Hx as [Hx|[<-|[]]]; auto 6. }
  assert (Hss : forall m, In m (csent_in l) -> m = req_msg (c_conv s) q /\ c_conv s' = S (c_conv s)).
  { intros m Hm. destruct Hc as [(-> & _ & -> & _)|[(-> & -> & _)|(-> & _)]]; cbn in Hm; intuition congruence. }
  constructor.
  - intros m Hm Hi. rewrite csent_snoc in Hm. apply in_app_or in Hm as [Hm|Hm]; [apply (kb_conv _ _ B) in Hm; auto; lia|].
    apply Hss in Hm as [-> ->]. lia.
  - rewrite csent_snoc, filter_app, map_app.
    assert (E : map conv_of (filter is_request (csent_in l)) = [c_conv s] \/ csent_in l = []).
    { destruct Hc as [(-> & _)|[(-> & _)|(-> & _)]]; auto; left; cbn; rewrite Hq1; cbn; now rewrite Hq2. }
    destruct E as [E|E]; rewrite E; cbn [filter map]; [|rewrite app_nil_r; apply B]. apply nodup_snoc; [apply B|].
    intros X. apply in_map_iff in X as (m & Em & Hm). apply filter_In in Hm as [Hm1 Hm2]. apply (kb_conv _ _ B) in Hm1; auto. lia.
  - intros k q' l' Hi. rewrite Eu. apply in_or_app. apply in_app_or in Hi as [Hi|[Hi|[]]]; [left; eapply kb_used; eauto|]. injection Hi as -> _ _. right. now left.
  - intros x Hx. rewrite Eu. apply Hr in Hx as [Hx|(-> & _ & _ & ->)].
    + apply (kb_in _ _ B) in Hx as [H1 H2]. split; [apply in_or_app; auto|lia].
    + cbn. split; [apply in_or_app; right; now left|lia].
  - destruct Hc as [(_ & _ & _ & ->)|[(_ & _ & ->)|(_ & _ & ->)]]; try apply B. rewrite map_app. apply nodup_snoc; [apply B|].
    intros X. apply in_map_iff in X as (x & Ex & Hx). now apply Hu in Hx.
  - destruct Hc as [(_ & _ & _ & ->)|[(_ & _ & ->)|(_ & _ & ->)]]; try apply B. rewrite map_app. apply nodup_snoc; [apply B|].
    intros X. apply in_map_iff in X as (x & Ex & Hx). cbn in Ex. apply (kb_in _ _ B) in Hx as [_ Hx]. lia.
  - intros x Hx. apply Hr in Hx as [Hx|(-> & Hw & -> & _)].
    + apply pended_snoc; [now apply (kb_pend _ _ B)|apply He; auto|reflexivity].
    + now apply pended_new.
  - intros k Hk. apply outstanding_snoc in Hk as [[Hk _]|(q' & l' & E & Hk)].
    + apply (kb_out _ _ B) in Hk. destruct Hc as [(_ & _ & _ & ->)|[(_ & _ & ->)|(_ & _ & ->)]]; auto. rewrite map_app. apply in_or_app. auto.
    + injection E as <- _ _. destruct Hc as [(_ & _ & _ & ->)|[(-> & _)|(-> & _)]].
      * rewrite map_app. apply in_or_app. right. now left.
      * cbn in Hk. rewrite Nat.eqb_refl in Hk. discriminate.
      * cbn in Hk. rewrite Nat.eqb_refl in Hk. discriminate.
  - rewrite fins_snoc. assert (E : fin_in l = [] \/ fin_in l = [n]) by (destruct Hc as [(-> & _)|[(-> & _)|(-> & _)]]; auto).
    destruct E as [-> | ->]; [rewrite app_nil_r; apply B|]. apply nodup_snoc; [apply B|]. intros X. apply (kb_fin _ _ B) in X. tauto.
  - intros k Hk. rewrite fins_snoc in Hk. rewrite Eu.
    assert (Hin : In k (fins tr) \/ k = n /\ c_reqs s' = c_reqs s).
    { destruct Hc as [(E & _)|[(E & _ & Er)|(E & _ & Er)]]; rewrite E in Hk; cbn [fin_in flat_map app] in Hk; rewrite ?app_nil_r in Hk; auto;
        apply in_app_or in Hk as [Hk|[<-|[]]]; auto. }
    destruct Hin as [Hk'|[-> ->]].
    + apply (kb_fin _ _ B) in Hk' as [H1 H2]. split; [apply in_or_app; auto|]. intros X. apply in_map_iff in X as (x & Ex & Hx).
      apply Hr in Hx as [Hx|(-> & _)]; [apply H2, in_map_iff; eauto|cbn in Ex; congruence].
    + split; [apply in_or_app; right; now left|]. intros X. apply in_map_iff in X as (x & Ex & Hx). now apply Hu in Hx.
Qed.

Lemma call_inj : forall l x y, NoDup (map p_call l) -> In x l -> In y l -> p_call x = p_call y -> x = y.
Proof.
  induction l as [|z l IH]; cbn; intros x y H Hx Hy E; [destruct Hx|]. inversion_clear H as [|? ? H1 H2].
  destruct Hx as [->|Hx], Hy as [->|Hy]; auto; exfalso; apply H1.
  - rewrite E. now apply in_map.
  - rewrite <- E. now apply in_map.
Qed.

Lemma book_gone : forall tr s o l n x, cbook tr s -> find_req n (c_reqs s) = Some x ->
    (o = CWait n \/ o = CResume n) /\ (l = [CError n] \/ exists r, l = [CAnswer n r]) \/ o = CCancel n /\ l = [] ->
    cbook (tr ++ [(o, l)]) (c_with_reqs s (del_req n (c_reqs s))).
Proof.
  intros tr s o l n x B E H. apply find_req_in in E as [Hin Hc]. apply book_del; auto.
  - apply in_map_iff. eauto.
  - intros y _ Hn. destruct H as [[H1 H2]|[-> ->]]; unfold ends.
    + assert (Hb : n =? p_call y = false) by (apply Nat.eqb_neq; auto). destruct H1 as [-> | ->], H2 as [-> |[r ->]]; cbn; now rewrite Hb.
    + cbn. rewrite orb_false_r. apply Nat.eqb_neq. auto.
  - destruct H as [[H1 H2]|[-> ->]]; unfold ends; [|cbn; now rewrite Nat.eqb_refl].
    destruct H1 as [-> | ->], H2 as [-> |[r ->]]; cbn; now rewrite Nat.eqb_refl.
  - intuition.
  - destruct H as [[_ [-> |[r ->]]]|[_ ->]]; reflexivity.
  - destruct H as [[_ [-> |[r ->]]]|[_ ->]]; auto.
Qed.

Lemma cbook_step : forall tr s o s' l, cloop tr s -> cbook tr s -> cexec s o = Some (s', l) -> cbook (tr ++ [(o, l)]) s'.
Proof.
  intros tr s o s' l K B H. pose proof (cloop_step _ _ _ _ _ K H) as K'.
  assert (Same : forall h st up, c_reqs s' = c_reqs s -> s' = CState up h st (c_conv s) (c_reqs s) (c_used s) ->
            (forall n, ends n (o, l) = false) -> (forall n, responds n (o, l) = false) -> filter is_request (csent_in l) = [] -> fin_in l = [] ->
            (forall n q, o <> CRequest n q) -> cbook (tr ++ [(o, l)]) s').
  { intros h st up E -> He Hr Hs Hf Hn. apply (book_map _ _ _ _ _ (fun x => x) B); auto.
    - cbn. now rewrite map_id.
    - intros x Hx Hp. apply pended_snoc; auto. }
  assert (Fin : s' = finish s -> c_reqs s = [] \/ (forall n, responds n (o, l) = false) ->
            (forall n, ends n (o, l) = false) -> filter is_request (csent_in l) = [] -> fin_in l = [] ->
            (forall n q, o <> CRequest n q) -> cbook (tr ++ [(o, l)]) s').
  { intros -> Hr He Hs Hf Hn. eapply book_map; eauto; [reflexivity| |].
    - intros x. cbn. destruct (p_state x); auto.
    - intros x Hx Hp. cbn beta. destruct Hr as [Hr|Hr]; [rewrite Hr in Hx; destruct Hx|].
      destruct (p_state x) eqn:E; [rewrite E; apply pended_snoc; auto|apply pended_fail; [exact Hp|auto|exact (kl_shut _ _ K')]|rewrite E; apply pended_snoc; auto|rewrite E; apply pended_snoc; auto]. }
  cstepd H.
  all: try solve [eapply Same; first [reflexivity|intros; reflexivity|intros; discriminate]].
  all: try solve [eapply Fin; first [reflexivity|intros; reflexivity|intros; discriminate|left; apply (kl_init _ _ K); assumption|right; intros; reflexivity]].
  all: try solve [match goal with E : nmem _ _ = false |- _ => apply (book_request _ s); [assumption|intros X; apply nmem_In in X; congruence|reflexivity|];
         first [solve [left; repeat split; assumption]|solve [right; left; repeat split]|solve [right; right; repeat split]] end].
  - assert (Hm : forall x, In x (c_reqs s) -> pended (p_call x) (p_conv x) (p_state x) tr ->
      pended (p_call x) (p_conv x) (p_state (match p_state x with RWait => if conv =? p_conv x then Pend (p_call x) conv (RDone (ARegister r)) else x | _ => x end)) (tr ++ [(CMsg (MRegisterRes conv r), [])])).
    { intros x Hx Hp. destruct (p_state x) eqn:Es; try (rewrite Es; apply pended_snoc; [assumption|reflexivity|discriminate]).
      destruct (Nat.eqb_spec conv (p_conv x)) as [->|Hne]; [cbn; eapply pended_done; eauto|]. rewrite Es. apply pended_snoc; auto.
      intros _. unfold responds. cbn. now apply Nat.eqb_neq. }
    eapply book_map; [exact B|reflexivity|reflexivity|reflexivity| |exact Hm|reflexivity|reflexivity|discriminate].
    intros x. cbn. destruct (p_state x); auto. destruct (Nat.eqb_spec conv (p_conv x)); auto.
  - assert (Hm : forall x, In x (c_reqs s) -> pended (p_call x) (p_conv x) (p_state x) tr ->
      pended (p_call x) (p_conv x) (p_state (match p_state x with RWait => if conv =? p_conv x then Pend (p_call x) conv (RDone (AQuery r)) else x | _ => x end)) (tr ++ [(CMsg (MQueryRes conv r), [])])).
    { intros x Hx Hp. destruct (p_state x) eqn:Es; try (rewrite Es; apply pended_snoc; [assumption|reflexivity|discriminate]).
      destruct (Nat.eqb_spec conv (p_conv x)) as [->|Hne]; [cbn; eapply pended_done; eauto|]. rewrite Es. apply pended_snoc; auto.
      intros _. unfold responds. cbn. now apply Nat.eqb_neq. }
    eapply book_map; [exact B|reflexivity|reflexivity|reflexivity| |exact Hm|reflexivity|reflexivity|discriminate].
    intros x. cbn. destruct (p_state x); auto. destruct (Nat.eqb_spec conv (p_conv x)); auto.
  - match goal with E : find_req n _ = Some _ |- _ => pose proof (find_req_in _ _ _ E) as [Hin Hc] end. cbn in Hc. subst.
    eapply book_map; [exact B|reflexivity|reflexivity|reflexivity| | |reflexivity|reflexivity|discriminate].
    + intros x. cbn. destruct (Nat.eqb_spec n (p_call x)); auto.
    + intros x Hx Hp. cbn beta. destruct (Nat.eqb_spec n (p_call x)) as [Ee|Hne].
      * pose proof (call_inj _ _ _ (kb_calls _ _ B) Hx Hin (eq_sym Ee)) as ->. cbn in *. now apply pended_wait.
      * apply pended_snoc; auto; reflexivity.
  - eapply book_gone; eauto 6.
  - eapply book_gone; eauto 8.
  - eapply book_gone; eauto 6.
  - eapply book_gone; eauto 6.
Qed.
