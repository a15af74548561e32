From Coq Require Import String Bool ZArith Lia List.
From Verif Require Import Base Kv Model_Types Model_Codec Keys Model_Lmdb Spec_Order Proof_Order Spec_LmdbContent Spec_Copy
  Model_Convert Spec_Convert Proof_Convert.
Import ListNotations.
Open Scope list_scope.
Open Scope Z_scope.

(** ** References *)

Definition rlisted (ref : list (event_id * list event_ref)) (i : event_id) (r : event_ref) : Prop :=
  exists rs, In (i, rs) ref /\ In r rs.
Definition ref_ok (ref : list (event_id * list event_ref)) : Prop :=
  ksorted eidord ref /\ forall i rs, In (i, rs) ref -> rs <> [].

Lemma update_ref_ok : forall ref i r, ref_ok ref -> ref_ok (update_ref ref i r) /\
  forall j q, rlisted (update_ref ref i r) j q <-> rlisted ref j q \/ (j = i /\ q = r).
Proof.
  intros ref i r [S N].
  assert (S' : ksorted eidord (update_ref ref i r)) by (now apply ksorted_kput).
  assert (G : forall j rs, In (j, rs) (update_ref ref i r) <->
     if oeqb eidord j i then rs = sadd reford r (match kget eidord i ref with Some l => l | None => [] end)
     else In (j, rs) ref).
  { intros j rs. rewrite <- (kget_In eidord) by exact S'. unfold update_ref. rewrite kget_kput.
    destruct (oeqb eidord j i) eqn:E; [split; congruence|]. apply (kget_In eidord). exact S. }
  split.
  - split; auto. intros j rs H. apply G in H. destruct (oeqb eidord j i); [|eauto].
    intros E. subst rs. assert (X : In r (sadd reford r (match kget eidord i ref with Some l => l | None => [] end))).
    { apply In_sadd. now left. }
    rewrite E in X. destruct X.
  - intros j q. unfold rlisted. destruct (oeqb eidord j i) eqn:E.
    + apply (oeqb_spec eidord) in E. subst j. split.
      * intros (rs & H & I). apply G in H. rewrite (proj2 (oeqb_spec eidord i i) eq_refl) in H. subst rs.
        apply In_sadd in I. destruct I as [->|I]; [now right|]. left.
        destruct (kget eidord i ref) as [l|] eqn:K; [|destruct I]. exists l. split; auto. now apply (kget_Some_In eidord).
      * intros H. eexists. split; [apply G; rewrite (proj2 (oeqb_spec eidord i i) eq_refl); reflexivity|].
        apply In_sadd. destruct H as [(rs & H & I)|[_ ->]]; [right|now left].
        apply (kget_In eidord) in H; auto. now rewrite H.
    + assert (NE : j <> i) by (intros ->; rewrite (proj2 (oeqb_spec eidord i i) eq_refl) in E; discriminate).
      split.
      * intros (rs & H & I). apply G in H. rewrite E in H. left. eauto.
      * intros [(rs & H & I)|[-> _]]; [|congruence]. exists rs. split; auto. apply G. now rewrite E.
Qed.

(** ** Greatest ids *)

Definition greatest_of (l : list event7) (cur : option event7) : Prop :=
  match cur with
  | None => l = []
  | Some e => In e l /\ forall x, In x l -> eid_le (e7_id x) (e7_id e)
  end.

Lemma keep_greater_ok : forall l cur e, greatest_of l cur -> greatest_of (l ++ [e]) (keep_greater cur e).
Proof.
  intros l [c|] e; cbn [greatest_of keep_greater].
  - intros [I G]. destruct (eid_ltb (e7_id c) (e7_id e)) eqn:E.
    + apply eid_ltb_spec in E. split; [apply in_elt|]. intros x H. apply in_app_iff in H.
      destruct H as [H|[ <-|[]]]; [|now right]. left. destruct (G _ H) as [L| ->]; auto. eapply eid_lt_trans; eauto.
    + split; [apply in_app_iff; auto|]. intros x H. apply in_app_iff in H. destruct H as [H|[ <-|[]]]; auto.
      destruct (eid_lt_total (e7_id c) (e7_id e)) as [L|[L|L]].
      * apply eid_ltb_spec in L. congruence. * now right. * now left.
  - intros ->. split; [now left|]. intros x [ <-|[]]. now right.
Qed.

(** ** Latest events *)

Lemma latest_loop : forall sid l,
  let '(cur, next, latest, types, ref) := fold_left (latest_turn sid) l (None, 1, [], [], []) in
  greatest_of (map (event_6_7 sid) l) cur /\ next = Z.of_nat (List.length l) + 1 /\
  (NoDup (keys latest) /\ keys latest = keys types) /\ map snd latest = map (event_6_7 sid) l /\
  map snd types = map e6_type l /\ (forall k, In k (keys latest) -> 1 <= k < next) /\
  ref_ok ref /\
  (forall r t, In (r, t) types <-> exists e, In (r, e) latest /\ e7_type e = t) /\
  (forall i q, rlisted ref i q <-> exists r e, In (r, e) latest /\ q = LatestRef r /\ e7_id e = i).
Proof.
  intros sid l. induction l as [|x l IH] using rev_ind.
  - cbn [fold_left map List.length]. split; [reflexivity|]. split; [reflexivity|]. split; [split; [constructor|reflexivity]|].
    split; [reflexivity|]. split; [reflexivity|]. split; [intros k []|].
    split; [split; [constructor|intros i rs []]|]. split.
    + intros r t. split; [intros []|intros (e & [] & _)].
    + intros i q. split; [intros (rs & [] & _)|intros (r & e & [] & _)].
  - rewrite fold_left_app. cbn [fold_left].
    destruct (fold_left (latest_turn sid) l (None, 1, [], [], [])) as [[[[cur next] latest] types] ref].
    destruct IH as (G & Nx & (Nd & Ke) & Ml & Mt & B & R & T & L). cbn [latest_turn].
    assert (APP : forall V (m : list (Z * V)) v, (forall k, In k (keys m) -> 1 <= k < next) -> kput zord next v m = m ++ [(next, v)]).
    { intros V m v. induction m as [|[k w] m IHm]; intros H; [reflexivity|]. cbn [kput app].
      assert (k < next) by (apply H; now left).
      assert (E1 : oltb zord next k = false) by (cbn; lia).
      assert (E2 : oltb zord k next = true) by (cbn; lia).
      rewrite E1, E2. f_equal. apply IHm. intros j Hj. apply H. now right. }
    rewrite (APP _ latest) by exact B. rewrite (APP _ types) by (now rewrite <- Ke).
    destruct (update_ref_ok ref (e7_id (event_6_7 sid x)) (LatestRef next) R) as [R' L'].
    rewrite !map_app. cbn [map snd].
    split; [now apply keep_greater_ok|]. split; [rewrite app_length; cbn; lia|].
    split; [split|].
    + unfold keys. rewrite map_app. cbn [map fst]. apply NoDup_snoc; auto. intros I. apply B in I. lia.
    + unfold keys in *. rewrite !map_app. cbn. now rewrite Ke.
    + split; [now rewrite Ml|]. split; [now rewrite Mt|]. split; [|split; [exact R'|split]].
      * intros k K. unfold keys in K. rewrite map_app in K. apply in_app_iff in K. destruct K as [K|[ <-|[]]]; cbn [fst].
        -- apply B in K. lia.
        -- rewrite Nx. lia.
      * intros r t. rewrite in_app_iff, T. cbn [In]. split.
        -- intros [(e & I & E)|[[= <- <-]|[]]].
           ++ exists e. rewrite in_app_iff. auto.
           ++ exists (event_6_7 sid x). rewrite in_app_iff. cbn. auto.
        -- intros (e & I & E). apply in_app_iff in I. destruct I as [I|[[= <- <-]|[]]]; [left; eauto|]. right. left. now rewrite <- E.
      * intros i q. rewrite L', L. split.
        -- intros [(r & e & I & -> & <-)|[-> ->]].
           ++ exists r, e. rewrite in_app_iff. auto.
           ++ exists next, (event_6_7 sid x). rewrite in_app_iff. cbn. auto.
        -- intros (r & e & I & -> & <-). apply in_app_iff in I. destruct I as [I|[[= <- <-]|[]]]; [left; eauto|now right].
Qed.

(** ** Ordered data *)

Definition entry_6_7 (sid : Z) (kv : (Z * timestamp * Z) * event6) : ts_key * event7 :=
  ((fst (fst (fst kv)), snd (fst (fst kv)), e7_id (event_6_7 sid (snd kv))), event_6_7 sid (snd kv)).

Lemma ordered_loop : forall sid ref0 l, ref_ok ref0 -> NoDup (map (fun kv => fst (entry_6_7 sid kv)) l) ->
  let '(cur, data, ref) := fold_left (ordered_turn sid) l (None, [], ref0) in
  greatest_of (map (fun kv => event_6_7 sid (snd kv)) l) cur /\ ksorted keyord data /\
  (forall x, In x data <-> In x (map (entry_6_7 sid) l)) /\ ref_ok ref /\
  (forall i q, rlisted ref i q <-> rlisted ref0 i q \/ exists k e, In (k, e) data /\ q = TimeseriesRef k /\ e7_id e = i).
Proof.
  intros sid ref0 l R0. induction l as [|x l IH] using rev_ind; intros N.
  - cbn [fold_left map]. split; [reflexivity|]. split; [constructor|]. split; [reflexivity|]. split; [exact R0|].
    intros i q. split; [auto|]. intros [H|(k & e & [] & _)]. exact H.
  - rewrite map_app in N. cbn [map] in N.
    assert (N1 : NoDup (map (fun kv => fst (entry_6_7 sid kv)) l)).
    { apply NoDup_remove_1 in N. now rewrite app_nil_r in N. }
    assert (N2 : ~ In (fst (entry_6_7 sid x)) (map (fun kv => fst (entry_6_7 sid kv)) l)).
    { apply NoDup_remove_2 in N. now rewrite app_nil_r in N. }
    specialize (IH N1). rewrite fold_left_app. cbn [fold_left].
    destruct (fold_left (ordered_turn sid) l (None, [], ref0)) as [[cur data] ref].
    destruct IH as (G & S & D & R & L). destruct x as [[[p t] n] e6]. cbn [ordered_turn].
    set (e := event_6_7 sid e6) in *. set (key := (p, t, e7_id e)) in *.
    destruct (update_ref_ok ref (e7_id e) (TimeseriesRef key) R) as [R' L'].
    assert (S' : ksorted keyord (kput keyord key e data)) by (now apply ksorted_kput).
    assert (NK : ~ In key (keys data)).
    { intros I. apply N2. apply in_map_iff in I. destruct I as ([k v] & E & I). cbn [fst] in E. subst k.
      apply D in I. apply in_map_iff in I. destruct I as (y & E & I). apply in_map_iff. exists y. split; auto.
      rewrite E. reflexivity. }
    assert (D' : forall y, In y (kput keyord key e data) <-> In y data \/ y = (key, e)).
    { intros [k v]. rewrite <- (kget_In keyord) by exact S'. rewrite kget_kput.
      destruct (oeqb keyord k key) eqn:E.
      - apply (oeqb_spec keyord) in E. subst k. split; [intros [= <-]; auto|].
        intros [I|[= <-]]; auto. exfalso. apply NK. now apply (in_map fst) in I.
      - rewrite (kget_In keyord) by exact S. split; [auto|]. intros [I|[= -> ->]]; auto.
        rewrite (proj2 (oeqb_spec keyord key key) eq_refl) in E. discriminate. }
    rewrite !map_app. cbn [map snd fst]. fold e.
    split; [now apply keep_greater_ok|]. split; [exact S'|]. split; [|split; [exact R'|]].
    + intros y. rewrite D', D, in_app_iff. cbn [In]. unfold entry_6_7 at 3. cbn [fst snd]. fold e. fold key.
      intuition congruence.
    + intros i q. rewrite L', L. split.
      * intros [[H|(k & v & I & -> & <-)]|[-> ->]]; auto; right.
        -- exists k, v. rewrite D'. auto.
        -- exists key, e. rewrite D'. auto.
      * intros [H|(k & v & I & -> & <-)]; auto. apply D' in I. destruct I as [I|[= -> ->]]; auto.
        left. right. exists k, v. auto.
Qed.

(** ** The system database *)

Lemma note_greatest_first : forall sid cur,
  note_greatest [] sid cur =
  match cur with
  | Some e => if eid_ltb (Eid sid 0 0) (e7_id e) then [(sid, (e7_id e, e7_ts e))] else []
  | None => []
  end.
Proof. intros sid [e|]; reflexivity. Qed.

(** Both passes together. *)
Lemma note_both : forall sid l1 l2 c1 c2, greatest_of l1 c1 -> greatest_of l2 c2 ->
  let sys := note_greatest (note_greatest [] sid c1) sid c2 in
  (exists e, In e (l1 ++ l2) /\ (forall x, In x (l1 ++ l2) -> eid_le (e7_id x) (e7_id e)) /\
     eid_lt (Eid sid 0 0) (e7_id e) /\ sys = [(sid, (e7_id e, e7_ts e))]) \/
  ((forall x, In x (l1 ++ l2) -> ~ eid_lt (Eid sid 0 0) (e7_id x)) /\ sys = []).
Proof.
  intros sid l1 l2 c1 c2 G1 G2. cbn zeta. rewrite note_greatest_first.
  assert (NLT : forall a b, eid_ltb a b = false -> eid_le b a).
  { intros a b E. destruct (eid_lt_total a b) as [L|[L|L]]; [apply eid_ltb_spec in L; congruence|right; auto|now left]. }
  assert (TR : forall a b c, eid_le a b -> eid_le b c -> eid_le a c).
  { intros a b c [A|A] [B|B]; subst; unfold eid_le; auto. left. eapply eid_lt_trans; eauto. }
  assert (NL : forall a b, eid_le b a -> ~ eid_lt a b).
  { intros a b [H|H] L; [eapply eid_lt_irrefl, eid_lt_trans; eauto|]. subst. eapply eid_lt_irrefl; eauto. }
  set (z := Eid sid 0 0) in *.
  destruct c1 as [e1|], c2 as [e2|]; cbn [greatest_of] in *.
  - destruct G1 as [I1 G1], G2 as [I2 G2]. destruct (eid_ltb z (e7_id e1)) eqn:E1; cbn [note_greatest]; unfold update_system; cbn zeta.
    + assert (K : kget zord sid [(sid, (e7_id e1, e7_ts e1))] = Some (e7_id e1, e7_ts e1)).
      { unfold kget. cbn. now rewrite Z.eqb_refl. }
      rewrite K. destruct (eid_ltb (e7_id e1) (e7_id e2)) eqn:E2.
      * left. exists e2. split; [apply in_app_iff; auto|]. apply eid_ltb_spec in E1, E2. split; [|split].
        -- intros x H. apply in_app_iff in H. destruct H as [H|H]; auto. eapply TR; [apply G1; auto|]. now left.
        -- eapply eid_lt_trans; eauto.
        -- cbn [kput]. assert (oltb zord sid sid = false) as -> by (cbn; lia). reflexivity.
      * left. exists e1. split; [apply in_app_iff; auto|]. split; [|split; [now apply eid_ltb_spec|reflexivity]].
        intros x H. apply in_app_iff in H. destruct H as [H|H]; auto. eapply TR; [apply G2; auto|]. now apply NLT.
    + assert (K : kget zord sid ([] : list (Z * (event_id * timestamp))) = None) by reflexivity. rewrite K. fold z.
      destruct (eid_ltb z (e7_id e2)) eqn:E2.
      * left. exists e2. split; [apply in_app_iff; auto|]. apply eid_ltb_spec in E2. split; [|split; [exact E2|reflexivity]].
        intros x H. apply in_app_iff in H. destruct H as [H|H]; auto. eapply TR; [apply G1; auto|].
        eapply TR; [apply NLT; exact E1|]. now left.
      * right. split; [|reflexivity]. intros x H. apply NL. apply in_app_iff in H. destruct H as [H|H].
        -- eapply TR; [apply G1; auto|]. now apply NLT.
        -- eapply TR; [apply G2; auto|]. now apply NLT.
  - destruct G1 as [I1 G1]. subst l2. rewrite app_nil_r. cbn [note_greatest].
    destruct (eid_ltb z (e7_id e1)) eqn:E1.
    + left. exists e1. apply eid_ltb_spec in E1. auto.
    + right. split; auto. intros x H. apply NL. eapply TR; [apply G1; auto|]. now apply NLT.
  - destruct G2 as [I2 G2]. subst l1. cbn [app note_greatest]; unfold update_system; cbn zeta.
    assert (K : kget zord sid ([] : list (Z * (event_id * timestamp))) = None) by reflexivity. rewrite K. fold z.
    destruct (eid_ltb z (e7_id e2)) eqn:E2.
    + left. exists e2. apply eid_ltb_spec in E2. auto.
    + right. split; auto. intros x H. apply NL. eapply TR; [apply G2; auto|]. now apply NLT.
  - subst. right. split; auto.
Qed.
