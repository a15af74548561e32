From Coq Require Import String Bool Arith Lia List.
From Verif Require Import Model_Types Model_Adminer Spec_Adminer Proof_Adminer.
Import ListNotations.
Open Scope list_scope.
Open Scope nat_scope.

Lemma history_app : forall a b, history (a ++ b) = history a ++ history b.
Proof. intros. apply flat_map_app. Qed.

Definition rconv (m : nat * akind * ares) : nat := fst (fst m).

(** A connection that nothing disturbed. *)
Record fine (x : aconn) : Prop := Fine {
  f_open : a_open x = true; f_loop : a_loop x = true; f_srv : a_srv x = true;
  f_state : forall p, In p (a_pend x) -> ap_state p = SWait \/ exists r, ap_state p = SDone r /\ r <> RLost;
  f_conv : forall p, In p (a_pend x) -> ap_conv p < a_conv x;
  f_convs : NoDup (map ap_conv (a_pend x));
  f_calls : NoDup (calls (a_pend x));
  f_nodup : NoDup (map fst (a_reqs x) ++ map rconv (a_ress x));
  f_req : forall v q, In (v, q) (a_reqs x) -> exists p, In p (a_pend x) /\ ap_state p = SWait /\ ap_conv p = v /\ ap_kind p = kind q;
  f_res : forall v k r, In (v, k, r) (a_ress x) -> r <> RLost /\ exists p, In p (a_pend x) /\ ap_state p = SWait /\ ap_conv p = v /\ ap_kind p = k;
  f_wait : forall p, In p (a_pend x) -> ap_state p = SWait -> In (ap_conv p) (map fst (a_reqs x) ++ map rconv (a_ress x)) }.

Lemma fine_init : fine aconn_init.
Proof. split; cbn; try reflexivity; try constructor; intros; contradiction. Qed.

Lemma kind_eqb_refl : forall k, kind_eqb k k = true.
Proof. now intros []. Qed.

Lemma find_unique : forall A (f : A -> bool) l p, In p l -> f p = true -> (forall p', In p' l -> f p' = true -> p' = p) -> find f l = Some p.
Proof.
  intros A f. induction l as [|y l IH]; intros p I F U; [destruct I|]. cbn. destruct (f y) eqn:E.
  - rewrite (U y); auto. now left.
  - apply IH; auto. destruct I as [->|I]; [congruence|auto]. intros p' J. apply U. now right.
Qed.

Lemma NoDup_map_eq : forall A B (f : A -> B) l x y, NoDup (map f l) -> In x l -> In y l -> f x = f y -> x = y.
Proof.
  intros A B f. induction l as [|a l IH]; cbn; intros x y N I J E; [destruct I|]. inversion N as [|? ? N1 N2]; subst.
  destruct I as [<-|I], J as [<-|J]; auto.
  - exfalso. apply N1. rewrite E. now apply in_map.
  - exfalso. apply N1. rewrite <- E. now apply in_map.
Qed.

Lemma serve_lost : forall dc conf q conf' r, serve dc conf q = (conf', r) -> r <> RLost.
Proof. intros dc conf [|d] conf' r H; cbn in H; [|destruct (dc d)]; injection H as <- <-; discriminate. Qed.

(** A request is served. *)
Lemma fine_serve : forall x v q l r, fine x -> a_reqs x = (v, q) :: l -> r <> RLost ->
  fine (Aconn (a_conv x) (a_open x) (a_loop x) (a_srv x) l (if a_open x then a_ress x ++ [(v, kind q, r)] else a_ress x) (a_pend x)).
Proof.
  intros x v q l r [] Rq Nl. rewrite f_open0, Rq in *. cbn [map fst app] in *.
  assert (Perm : forall u, In u (map fst l ++ map rconv (a_ress x ++ [(v, kind q, r)])) <-> u = v \/ In u (map fst l ++ map rconv (a_ress x))).
  { intros u. rewrite map_app, !in_app_iff. cbn. intuition congruence. }
  split; cbn; auto.
  - inversion f_nodup0 as [|? ? N1 N2]; subst. rewrite map_app, app_assoc. apply NoDup_snoc; auto.
  - intros v' q' I. apply f_req0. now right.
  - intros v' k' r' I. apply in_app_or in I. destruct I as [I|[[= <- <- <-]|[]]]; auto. split; auto. apply f_req0. now left.
  - intros p I W. apply Perm. destruct (f_wait0 p I W) as [E|E]; auto.
Qed.

(** A response is received. *)
Lemma fine_deliver : forall x v k r l, fine x -> a_ress x = (v, k, r) :: l ->
  exists p, In p (a_pend x) /\ ap_conv p = v /\
  deliver (Aconn (a_conv x) (a_open x) (a_loop x) (a_srv x) (a_reqs x) l (a_pend x)) v k r =
    Aconn (a_conv x) (a_open x) (a_loop x) (a_srv x) (a_reqs x) l (set_call (ap_call p) (SDone r) (a_pend x)) /\
  fine (Aconn (a_conv x) (a_open x) (a_loop x) (a_srv x) (a_reqs x) l (set_call (ap_call p) (SDone r) (a_pend x))).
Proof.
  intros x v k r l F Rs. assert (F' := F). destruct F'. destruct (f_res0 v k r) as (Nl & p & I & W & V & K); [rewrite Rs; now left|].
  exists p. split; auto. split; auto. split.
  - unfold deliver, find_future. cbn [a_pend]. rewrite (find_unique _ _ _ p); auto.
    + rewrite W, K, kind_eqb_refl. reflexivity.
    + unfold has_future. rewrite W. cbn. apply Nat.eqb_eq. auto.
    + intros p' I' E. apply andb_prop in E. destruct E as [_ E]. apply Nat.eqb_eq in E. apply (NoDup_map_eq _ _ ap_conv (a_pend x)); auto. congruence.
  - assert (Fr : forall p', In p' (a_pend x) -> ap_conv p' <> v -> In p' (set_call (ap_call p) (SDone r) (a_pend x))).
    { intros p' I' N. unfold set_call. apply in_map_iff. exists p'. split; auto. destruct (Nat.eqb_spec (ap_call p') (ap_call p)) as [E|E]; auto.
      exfalso. apply N. rewrite (NoDup_map_eq _ _ ap_call (a_pend x) p' p); auto. }
    rewrite Rs in f_nodup0. cbn [map rconv fst] in f_nodup0.
    assert (Nv : ~ In v (map fst (a_reqs x) ++ map rconv l)) by (now apply NoDup_remove_2 in f_nodup0).
    split; cbn; auto.
    + intros p1 J. apply In_set in J. destruct J as (p' & J & _ & _ & _ & [[_ E]|[_ ->]]); eauto.
    + intros p1 J. apply In_set in J. destruct J as (p' & J & _ & -> & _). auto.
    + unfold set_call. rewrite map_map. erewrite map_ext; [exact f_convs0|]. intros p'. destruct (ap_call p' =? ap_call p); reflexivity.
    + now rewrite calls_set.
    + now apply NoDup_remove_1 in f_nodup0.
    + intros v' q J. destruct (f_req0 v' q J) as (p' & I' & W' & V' & K'). exists p'. split; auto. apply Fr; auto. rewrite V'. intros ->.
      apply Nv. apply in_or_app. left. change v with (fst (v, q)). now apply in_map.
    + intros v' k' r' J. destruct (f_res0 v' k' r') as (N' & p' & I' & W' & V' & K'); [rewrite Rs; now right|]. split; auto. exists p'. split; auto.
      apply Fr; auto. rewrite V'. intros ->. apply Nv. apply in_or_app. right. change v with (rconv (v, k', r')). now apply in_map.
    + intros p1 J W1. apply In_set in J. destruct J as (p' & J & E1 & E2 & _ & [[_ E]|[E ->]]); [congruence|].
      assert (X := f_wait0 p' J W1). rewrite Rs in X. cbn [map rconv fst] in X. apply in_app_or in X.
      apply in_or_app. destruct X as [X|[X|X]]; auto. exfalso. apply E. f_equal. apply (NoDup_map_eq _ _ ap_conv (a_pend x)); auto. congruence.
Qed.

Lemma NoDup_map_filter : forall A B (f : A -> B) g l, NoDup (map f l) -> NoDup (map f (filter g l)).
Proof.
  intros A B f g. induction l as [|a l IH]; cbn; intros N; [constructor|]. inversion N as [|? ? N1 N2]; subst.
  destruct (g a); cbn; auto. constructor; auto. intros I. apply N1. apply in_map_iff in I. destruct I as (b & E & I). apply filter_In in I.
  rewrite <- E. apply in_map. tauto.
Qed.

(** A call with a result goes on. *)
Lemma fine_resume : forall x p r, fine x -> In p (a_pend x) -> ap_state p = SDone r ->
  fine (with_pend x (del_call (ap_call p) (a_pend x))).
Proof.
  intros x p r [] I St.
  assert (K : forall p', In p' (a_pend x) -> ap_state p' = SWait -> In p' (del_call (ap_call p) (a_pend x))).
  { intros p' I' W. apply In_del. split; auto. intros E. assert (X : p' = p) by (apply (NoDup_map_eq _ _ ap_call (a_pend x)); auto). congruence. }
  split; cbn; auto.
  - intros p' J. apply In_del in J. apply f_state0. tauto.
  - intros p' J. apply In_del in J. apply f_conv0. tauto.
  - now apply NoDup_map_filter.
  - now apply NoDup_del.
  - intros v q J. destruct (f_req0 v q J) as (p' & A & B & C). exists p'. auto.
  - intros v k r' J. destruct (f_res0 v k r' J) as (N & p' & A & B & C). split; auto. exists p'. auto.
  - intros p' J W. apply In_del in J. apply f_wait0; tauto.
Qed.

(** A call is made. *)
Lemma fine_call : forall x n q, fine x -> ~ In n (calls (a_pend x)) ->
  fine (Aconn (S (a_conv x)) (a_open x) (a_loop x) (a_srv x) (a_reqs x ++ [(a_conv x, q)]) (a_ress x)
          (a_pend x ++ [Apend n (a_conv x) (kind q) SWait])).
Proof.
  intros x n q [] Nn.
  assert (Nv : ~ In (a_conv x) (map fst (a_reqs x) ++ map rconv (a_ress x))).
  { intros J. apply in_app_or in J. destruct J as [J|J]; apply in_map_iff in J.
    - destruct J as ([v q'] & E & J). destruct (f_req0 _ _ J) as (p & I & _ & V & _). apply f_conv0 in I. cbn [fst] in E. lia.
    - destruct J as ([[v k] r] & E & J). destruct (f_res0 _ _ _ J) as (_ & p & I & _ & V & _). apply f_conv0 in I. unfold rconv in E. cbn [fst] in E. lia. }
  assert (Perm : forall u, In u (map fst (a_reqs x ++ [(a_conv x, q)]) ++ map rconv (a_ress x)) <-> u = a_conv x \/ In u (map fst (a_reqs x) ++ map rconv (a_ress x))).
  { intros u. rewrite map_app, !in_app_iff. cbn. intuition congruence. }
  split; cbn; auto.
  - intros p I. apply in_app_or in I. destruct I as [I|[<-|[]]]; auto.
  - intros p I. apply in_app_or in I. destruct I as [I|[<-|[]]]; [apply f_conv0 in I; lia|cbn; lia].
  - rewrite map_app. apply NoDup_snoc; auto. intros I. apply in_map_iff in I. destruct I as (p & E & I). apply f_conv0 in I. cbn [ap_conv] in E. lia.
  - unfold calls. rewrite map_app. now apply NoDup_snoc.
  - rewrite map_app, <- app_assoc. cbn [map app fst]. apply NoDup_Add with (a := a_conv x) (l := map fst (a_reqs x) ++ map rconv (a_ress x)); [apply Add_app|auto].
  - intros v q' I. apply in_app_or in I. destruct I as [I|[[= <- <-]|[]]].
    + destruct (f_req0 _ _ I) as (p & J & K). exists p. split; auto. apply in_or_app. now left.
    + eexists. split; [apply in_or_app; right; left; reflexivity|]. auto.
  - intros v k r I. destruct (f_res0 _ _ _ I) as (N & p & J & K). split; auto. exists p. split; auto. apply in_or_app. now left.
  - intros p I W. apply Perm. apply in_app_or in I. destruct I as [I|[<-|[]]]; auto.
Qed.

(** ** Executions *)

Definition ok (dc : json -> option string) (c0 : json) (c : nat) (M : nat -> Prop) (h : list ahist) (s : adm) : Prop :=
  (exists g lin, ainv dc c0 h s g lin) /\ fine (ad_conns s c) /\
  (forall n, M n -> In n (ended h) \/ In n (calls (a_pend (ad_conns s c)))).

Lemma ainv_pend_used : forall dc c0 h s g lin c n, ainv dc c0 h s g lin -> In n (calls (a_pend (ad_conns s c))) -> In n (ad_used s).
Proof.
  intros dc c0 h s g lin c n I J. unfold calls in J. apply in_map_iff in J. destruct J as (p & <- & J).
  destruct (i_pend _ _ _ _ _ _ I _ _ J) as (q & G & _). exact (i_used _ _ _ _ _ _ I _ _ _ _ G).
Qed.

Lemma elsewhere : forall dc s e s' o c, astep dc s e = Some (s', o) -> place e <> c -> ad_conns s' c = ad_conns s c.
Proof.
  intros dc s e s' o c H N.
  destruct e; cbn [astep place] in *;
    repeat match type of H with
    | context[match ?x with _ => _ end] => destruct x eqn:?; try discriminate H
    end; injection H as <- <-; cbn [ad_conns]; rewrite ?upd_other by congruence; reflexivity.
Qed.

Lemma ended_mono : forall h o n, In n (ended h) -> In n (ended (h ++ o)).
Proof. intros. rewrite ended_app. apply in_or_app. now left. Qed.

Lemma find_call_of : forall n l p, NoDup (calls l) -> In p l -> ap_call p = n -> find_call n l = Some p.
Proof.
  intros n l p N I E. apply find_unique; auto; [now apply Nat.eqb_eq|]. intros p' I' E'. apply Nat.eqb_eq in E'.
  apply (NoDup_map_eq _ _ ap_call l); auto. congruence.
Qed.

Lemma calls_del : forall n l m, In m (calls l) -> m <> n -> In m (calls (del_call n l)).
Proof.
  intros n l m I N. unfold calls in *. apply in_map_iff in I. destruct I as (p & <- & I). apply in_map. apply In_del. auto.
Qed.

Lemma ok_step : forall dc c0 c M h s e s' o, ok dc c0 c M h s -> ~ disturbs c e -> astep dc s e = Some (s', o) ->
  ok dc c0 c M (h ++ o) s' /\ (place e = c -> forall n, ~ In (HRet n RLost) o).
Proof.
  intros dc c0 c M h s e s' o ((g & lin & I) & F & Mn) D H. assert (I' := ainv_step _ _ _ _ _ _ _ _ _ I H).
  destruct (Nat.eq_dec (place e) c) as [P|P].
  2: { split; [|congruence]. split; auto. rewrite (elsewhere _ _ _ _ _ _ H P). split; auto. intros n X. destruct (Mn n X) as [Y|Y]; auto.
       left. now apply ended_mono. }
  assert (Fo := f_open _ F). assert (Fl := f_loop _ F).
  destruct e as [d n q|d n|d sent|d|d|d|d|d n|d n]; cbn [place] in P; subst d; cbn [disturbs] in D; try (exfalso; now apply D); cbn [astep] in H.
  - destruct sent; [|exfalso; now apply D]. destruct (a_reqs (ad_conns s c)) as [|[v q] l] eqn:Rq; [discriminate|].
    destruct (serve dc (ad_conf s) q) as [conf r] eqn:Sv. injection H as <- <-. split; [|intros _ n []]. split; auto. cbn. rewrite upd_same.
    split; [apply fine_serve; auto; eapply serve_lost; eauto|]. rewrite app_nil_r. exact Mn.
  - destruct (a_ress (ad_conns s c)) as [|[[v k] r] l] eqn:Rs; [discriminate|]. rewrite Fo, Fl in H. cbn [andb] in H. injection H as <- <-.
    destruct (fine_deliver _ _ _ _ _ F Rs) as (p & J & V & E & F'). rewrite Fo, Fl in *. split; [|intros _ n []]. split; auto. cbn [ad_conns]. rewrite upd_same, E.
    split; auto. rewrite app_nil_r. cbn [a_pend]. rewrite calls_set. exact Mn.
  - rewrite Fo in H. discriminate.
  - destruct (find_call n (a_pend (ad_conns s c))) as [p|] eqn:Fc; [|discriminate]. destruct (find_call_In _ _ _ Fc) as [J <-].
    destruct (f_state _ F p J) as [W|(r & W & Nr)]; rewrite W in H; [discriminate|]. injection H as <- <-. split.
    + split; auto. cbn [ad_conns]. rewrite upd_same. split; [now apply fine_resume with (r := r)|]. intros m X. rewrite ended_app.
      destruct (Nat.eq_dec m (ap_call p)) as [->|Nm]; [left; apply in_or_app; right; now left|]. destruct (Mn m X) as [Y|Y]; [left; apply in_or_app; now left|].
      right. cbn. now apply calls_del.
    + intros _ m [X|[]]. injection X as _ X. congruence.
Qed.

Lemma ok_call : forall dc c0 c M h s n q s1 o1 s2 o2, ok dc c0 c M h s -> astep dc s (ACall c n q) = Some (s1, o1) ->
  astep dc s1 (AWait c n) = Some (s2, o2) ->
  ok dc c0 c (fun m => M m \/ m = n) (h ++ o1 ++ o2) s2 /\ forall m, ~ In (HRet m RLost) (o1 ++ o2).
Proof.
  intros dc c0 c M h s n q s1 o1 s2 o2 ((g & lin & I) & F & Mn) H1 H2.
  destruct (ainv_step _ _ _ _ _ _ _ _ _ I H1) as (g1 & lin1 & I1). assert (I2 := ainv_step _ _ _ _ _ _ _ _ _ I1 H2).
  assert (Fo := f_open _ F). assert (Fs := f_srv _ F). cbn [astep] in H1. destruct (existsb (Nat.eqb n) (ad_used s)) eqn:U; [discriminate|].
  assert (Fr : ~ In n (calls (a_pend (ad_conns s c)))).
  { intros J. apply (ainv_pend_used _ _ _ _ _ _ _ _ I) in J.
    assert (X : existsb (Nat.eqb n) (ad_used s) = true) by (apply existsb_exists; exists n; split; auto; apply Nat.eqb_refl). congruence. }
  rewrite Fo, Fs in H1. injection H1 as <- <-. cbn [astep ad_conns] in H2. rewrite upd_same in H2. cbn [a_pend a_open] in H2.
  rewrite (find_call_of n _ (Apend n (a_conv (ad_conns s c)) (kind q) SSent)) in H2.
  - cbn [ap_state] in H2. injection H2 as <- <-. split; [|intros m [X|[]]; discriminate]. split; [rewrite app_assoc; exact I2|].
    cbn [ad_conns]. rewrite upd_same. unfold with_pend. cbn [a_conv a_open a_loop a_srv a_reqs a_ress a_pend].
    assert (E : set_call n SWait (a_pend (ad_conns s c) ++ [Apend n (a_conv (ad_conns s c)) (kind q) SSent]) =
                a_pend (ad_conns s c) ++ [Apend n (a_conv (ad_conns s c)) (kind q) SWait]).
    { unfold set_call. rewrite map_app. cbn [map ap_call ap_conv ap_kind]. rewrite Nat.eqb_refl. f_equal.
      rewrite <- (map_id (a_pend (ad_conns s c))) at 2. apply map_ext_in. intros p J. destruct (Nat.eqb_spec (ap_call p) n) as [X|X]; auto.
      exfalso. apply Fr. rewrite <- X. now apply (in_map ap_call). }
    rewrite E. split.
    + assert (X := fine_call _ n q F Fr). rewrite Fo, Fs in X. exact X.
    + intros m X. unfold calls. rewrite map_app. destruct X as [X| ->]; [|right; apply in_or_app; right; now left].
      destruct (Mn m X) as [Y|Y]; [left; now apply ended_mono|right; apply in_or_app; now left].
  - unfold calls. rewrite map_app. apply NoDup_snoc; auto. apply (f_calls _ F).
  - apply in_or_app. right. now left.
  - reflexivity.
Qed.

Lemma ok_run : forall dc c0 c tr, gentle c tr -> forall M h s s', ok dc c0 c M h s -> aruns dc s tr s' ->
  ok dc c0 c (fun n => M n \/ over c tr n) (h ++ history tr) s' /\
  forall e o n, In (e, o) tr -> place e = c -> ~ In (HRet n RLost) o.
Proof.
  intros dc c0 c tr G. induction G as [|n q tr o o' G IH|e o tr D G IH]; intros M h s s' K R.
  - inversion R; subst. unfold history. cbn [flat_map]. rewrite app_nil_r. split; [|intros e o n []]. destruct K as (A & B & C). split; auto. split; auto.
    intros n [X|(q & o & [])]. auto.
  - inversion R as [|? ? ? s1 ? ? H1 R1]; subst. inversion R1 as [|? ? ? s2 ? ? H2 R2]; subst.
    destruct (ok_call _ _ _ _ _ _ _ _ _ _ _ _ K H1 H2) as [K2 L]. destruct (IH _ _ _ _ K2 R2) as [(A & B & C) L2]. split.
    + unfold history in *. cbn [flat_map snd]. rewrite <- !app_assoc in *. split; auto. split; auto. intros m X. apply C.
      destruct X as [X|(q' & o1 & [X|[X|X]])]; auto; [injection X as <- <- <-; auto|discriminate|]. right. exists q', o1. auto.
    + intros e o1 m [X|[X|X]] P; [injection X as <- <-|injection X as <- <-|eauto]; intros Y; apply (L m); apply in_or_app; auto.
  - inversion R as [|? ? ? s1 ? ? H1 R1]; subst. destruct (ok_step _ _ _ _ _ _ _ _ _ K D H1) as [K1 L].
    destruct (IH _ _ _ _ K1 R1) as [(A & B & C) L2]. split.
    + unfold history in *. cbn [flat_map snd]. rewrite <- !app_assoc in *. split; auto. split; auto. intros m X. apply C.
      destruct X as [X|(q' & o1 & [X|X])]; auto; [|right; exists q', o1; auto]. injection X as -> <-. exfalso. apply D. reflexivity.
    + intros e1 o1 m [X|X] P; [injection X as <- <-; auto|eauto].
Qed.

Lemma ok_init : forall dc c0 c, ok dc c0 c (fun _ => False) [] (adm_init c0).
Proof. intros dc c0 c. split; [eexists; eexists; apply ainv_init|]. split; [apply fine_init|]. intros n []. Qed.

Lemma final_C63_partial : forall dc c0 c tr s e o n, aruns dc (adm_init c0) tr s -> gentle c tr -> In (e, o) tr -> place e = c ->
  ~ In (HRet n RLost) o.
Proof. intros dc c0 c tr s e o n R G I P. destruct (ok_run _ _ _ _ G _ _ _ _ (ok_init dc c0 c) R) as [_ L]. eauto. Qed.

(** ** Calls can be answered *)

Lemma drain_reqs : forall dc c n l s, a_reqs (ad_conns s c) = l -> fine (ad_conns s c) ->
  exists tr s', aruns dc s tr s' /\ (forall e o, In (e, o) tr -> answering c n e) /\ fine (ad_conns s' c) /\
    a_reqs (ad_conns s' c) = [] /\ calls (a_pend (ad_conns s' c)) = calls (a_pend (ad_conns s c)).
Proof.
  intros dc c n. induction l as [|[v q] l IH]; intros s E F.
  - exists [], s. split; [constructor|]. split; [intros e o []|]. auto.
  - destruct (serve dc (ad_conf s) q) as [conf r] eqn:Sv.
    set (s1 := Adm conf (upd (ad_conns s) c (Aconn (a_conv (ad_conns s c)) (a_open (ad_conns s c)) (a_loop (ad_conns s c)) (a_srv (ad_conns s c)) l
                 (if a_open (ad_conns s c) then a_ress (ad_conns s c) ++ [(v, kind q, r)] else a_ress (ad_conns s c)) (a_pend (ad_conns s c)))) (ad_used s)).
    assert (H : astep dc s (AServe c true) = Some (s1, [])) by (cbn [astep]; rewrite E, Sv; reflexivity).
    destruct (IH s1) as (tr & s' & R & A & F' & Z & Cs).
    + unfold s1. cbn [ad_conns]. now rewrite upd_same.
    + unfold s1. cbn [ad_conns]. rewrite upd_same. apply fine_serve; auto. eapply serve_lost; eauto.
    + exists ((AServe c true, []) :: tr), s'. split; [econstructor; eauto|]. split; [intros e o [X|X]; [injection X as <- <-; unfold answering; auto|eauto]|].
      split; auto. split; auto. rewrite Cs. unfold s1. cbn [ad_conns]. now rewrite upd_same.
Qed.

Lemma drain_ress : forall dc c n l s, a_ress (ad_conns s c) = l -> a_reqs (ad_conns s c) = [] -> fine (ad_conns s c) ->
  exists tr s', aruns dc s tr s' /\ (forall e o, In (e, o) tr -> answering c n e) /\ fine (ad_conns s' c) /\
    a_reqs (ad_conns s' c) = [] /\ a_ress (ad_conns s' c) = [] /\ calls (a_pend (ad_conns s' c)) = calls (a_pend (ad_conns s c)).
Proof.
  intros dc c n. induction l as [|[[v k] r] l IH]; intros s E Z F.
  - exists [], s. split; [constructor|]. split; [intros e o []|]. auto.
  - destruct (fine_deliver _ _ _ _ _ F E) as (p & J & V & D & F').
    set (s1 := Adm (ad_conf s) (upd (ad_conns s) c (Aconn (a_conv (ad_conns s c)) (a_open (ad_conns s c)) (a_loop (ad_conns s c)) (a_srv (ad_conns s c)) (a_reqs (ad_conns s c)) l
                 (set_call (ap_call p) (SDone r) (a_pend (ad_conns s c))))) (ad_used s)).
    assert (H : astep dc s (ADeliver c) = Some (s1, [])).
    { cbn [astep]. rewrite E. assert (Fo := f_open _ F). assert (Fl := f_loop _ F). rewrite D. rewrite Fo, Fl. cbn [andb]. unfold s1. rewrite Fo, Fl. reflexivity. }
    destruct (IH s1) as (tr & s' & R & A & F2 & Z2 & Z3 & Cs).
    + unfold s1. cbn [ad_conns]. now rewrite upd_same.
    + unfold s1. cbn [ad_conns]. now rewrite upd_same.
    + unfold s1. cbn [ad_conns]. now rewrite upd_same.
    + exists ((ADeliver c, []) :: tr), s'. split; [econstructor; eauto|]. split; [intros e o [X|X]; [injection X as <- <-; unfold answering; auto|eauto]|].
      split; auto. split; auto. split; auto. rewrite Cs. unfold s1. cbn [ad_conns]. rewrite upd_same. cbn [a_pend]. now rewrite calls_set.
Qed.

Lemma final_C63_answered : forall dc c0 c tr s n, aruns dc (adm_init c0) tr s -> gentle c tr -> over c tr n -> ~ In n (ended (history tr)) ->
  exists tr' s' r, aruns dc s tr' s' /\ (forall e o, In (e, o) tr' -> answering c n e) /\ In (HRet n r) (history tr') /\ r <> RLost.
Proof.
  intros dc c0 c tr s n R G O N. destruct (ok_run _ _ _ _ G _ _ _ _ (ok_init dc c0 c) R) as [(_ & F & Mn) _]. cbn [app] in Mn.
  destruct (Mn n (or_intror O)) as [X|X]; [contradiction|].
  destruct (drain_reqs dc c n _ s eq_refl F) as (t1 & s1 & R1 & A1 & F1 & Z1 & C1).
  destruct (drain_ress dc c n _ s1 eq_refl Z1 F1) as (t2 & s2 & R2 & A2 & F2 & Z2 & Z3 & C2).
  rewrite <- C1, <- C2 in X. unfold calls in X. apply in_map_iff in X. destruct X as (p & E & J).
  destruct (f_state _ F2 p J) as [W|(r & W & Nr)].
  - exfalso. assert (Y := f_wait _ F2 p J W). rewrite Z2, Z3 in Y. destruct Y.
  - exists (t1 ++ t2 ++ [(AResume c n, [HRet n r])]). eexists. exists r. split.
    + eapply aruns_app; eauto. eapply aruns_snoc; eauto. cbn [astep]. rewrite (find_call_of n _ p (f_calls _ F2) J E), W. reflexivity.
    + split; [|split; auto].
      * intros e o Y. apply in_app_or in Y. destruct Y as [Y|Y]; [eauto|]. apply in_app_or in Y. destruct Y as [Y|[[= <- <-]|[]]]; [eauto|unfold answering; auto].
      * rewrite !history_app. apply in_or_app. right. apply in_or_app. right. now left.
Qed.

(** ** A late response ends the client *)

Fixpoint aexec (dc : json -> option string) (s : adm) (es : list aevent) : option (list (aevent * list ahist) * adm) :=
  match es with
  | [] => Some ([], s)
  | e :: es' => match astep dc s e with
                | Some (s1, o) => match aexec dc s1 es' with Some (tr, s2) => Some ((e, o) :: tr, s2) | None => None end
                | None => None
                end
  end.
Lemma aexec_runs : forall dc es s tr s', aexec dc s es = Some (tr, s') -> aruns dc s tr s'.
Proof.
  intros dc. induction es as [|e es IH]; intros s tr s' H; cbn [aexec] in H.
  - injection H as <- <-. constructor.
  - destruct (astep dc s e) as [[s1 o]|] eqn:E; [|discriminate]. destruct (aexec dc s1 es) as [[tr1 s2]|] eqn:F; [|discriminate].
    injection H as <- <-. econstructor; eauto.
Qed.

Lemma final_C63_late : exists dc c0 tr s n, aruns dc (adm_init c0) tr s /\
  (forall e o, In (e, o) tr -> match e with AServe _ false | ASrvEnd _ | ALost _ => False | _ => True end) /\
  In (HRet n RLost) (history tr).
Proof.
  set (es := [ACall 0 1 AGet; AWait 0 1; ACancel 0 1; ACall 0 2 AGet; AWait 0 2; AServe 0 true; ADeliver 0; AResume 0 2]).
  exists (fun _ => None), JNull,
    [(ACall 0 1 AGet, [HCall 1 AGet]); (AWait 0 1, []); (ACancel 0 1, []); (ACall 0 2 AGet, [HCall 2 AGet]); (AWait 0 2, []);
     (AServe 0 true, []); (ADeliver 0, []); (AResume 0 2, [HRet 2 RLost])],
    (match aexec (fun _ => None) (adm_init JNull) es with Some (_, s) => s | None => adm_init JNull end), 2.
  split; [apply (aexec_runs _ es); vm_compute; reflexivity|]. split.
  - intros e o I. cbn in I. repeat (destruct I as [[= <- <-]|I]; [exact Logic.I|]). destruct I.
  - cbn. auto.
Qed.
