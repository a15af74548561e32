(** Engine: sessions (C31, C33). *)
From Coq Require Import String Bool ZArith Arith Lia Sorted List.
From Verif Require Import Base Model_Types Model_Subscription Model_Engine Spec_Engine.
Import ListNotations.
Open Scope list_scope.
Open Scope nat_scope.

Ltac einvs H :=
  unfold eexec, shut in H; cbv beta zeta in H;
  repeat match type of H with
         | None = Some _ => discriminate H
         | (if ?b then _ else _) = Some _ => destruct b eqn:?; try discriminate H
         | (let '(_, _) := ?x in _) = Some _ => destruct x eqn:?; try discriminate H
         | match ?x with _ => _ end = Some _ => destruct x eqn:?; try discriminate H
         | Some (let '(_, _) := ?x in _) = Some _ => destruct x eqn:?; try discriminate H
         end;
  try (first [injection H as <- <- | injection H as <-]).

(** ** Traces *)

Lemma eruns_inv : forall ms size s tr i s2, eruns ms size s (tr ++ [i]) s2 ->
    exists s1 o l, i = (o, l) /\ eruns ms size s tr s1 /\ eexec ms size s1 o = Some (s2, l).
Proof.
  intros ms size s tr i s2 H. remember (tr ++ [i]) as t eqn:E. destruct H as [|s tr1 s1 o l s2 H Hx].
  - destruct tr; discriminate.
  - apply app_inj_tail in E as [-> <-]. exists s1, o, l. auto.
Qed.
Lemma eruns_nil_inv : forall ms size s s2, eruns ms size s [] s2 -> s2 = s.
Proof. intros ms size s s2 H. remember [] as t eqn:E. destruct H; [auto|]. destruct tr; discriminate. Qed.
Lemma eruns_split : forall ms size b s a s2, eruns ms size s (a ++ b) s2 -> exists s1, eruns ms size s a s1.
Proof.
  intros ms size b. induction b as [|i b IH] using rev_ind; intros s a s2 H.
  - rewrite app_nil_r in H. eauto.
  - rewrite app_assoc in H. apply eruns_inv in H as (s1 & _ & _ & _ & H & _). eauto.
Qed.

Lemma outs_snoc : forall tr o l, outs_of (tr ++ [(o, l)]) = outs_of tr ++ l.
Proof. intros. unfold outs_of. rewrite flat_map_app. cbn [flat_map snd]. now rewrite app_nil_r. Qed.
Lemma ops_snoc : forall tr o l, ops_of (tr ++ [(o, l)]) = ops_of tr ++ [o].
Proof. intros. unfold ops_of. now rewrite map_app. Qed.
Lemma begun_snoc : forall tr o l, begun (tr ++ [(o, l)]) = begun tr ++ begun_in l.
Proof. intros. unfold begun. rewrite outs_snoc. apply flat_map_app. Qed.
Lemma handed_snoc : forall tr o l, handed (tr ++ [(o, l)]) = handed tr ++ handed_in l.
Proof. intros. unfold handed. rewrite outs_snoc. apply flat_map_app. Qed.
Lemma replied_snoc : forall tr o l, replied (tr ++ [(o, l)]) = replied tr ++ replied_in l.
Proof. intros. unfold replied. rewrite outs_snoc. apply flat_map_app. Qed.
Lemma begun_in_replies : forall s l, begun_in (flat_map (fun r => reply_to s Failed (rq_fut r)) l) = [].
Proof.
  intros s l. unfold begun_in. induction l as [|r l IH]; cbn [flat_map]; auto. rewrite flat_map_app, IH, app_nil_r.
  unfold reply_to. destruct (memb _ _); reflexivity.
Qed.
Lemma handed_in_replies : forall s l, handed_in (flat_map (fun r => reply_to s Failed (rq_fut r)) l) = [].
Proof.
  intros s l. unfold handed_in. induction l as [|r l IH]; cbn [flat_map]; auto. rewrite flat_map_app, IH, app_nil_r.
  unfold reply_to. destruct (memb _ _); reflexivity.
Qed.
Lemma begun_in_app : forall a b, begun_in (a ++ b) = begun_in a ++ begun_in b.
Proof. intros. apply flat_map_app. Qed.
Lemma handed_in_app : forall a b, handed_in (a ++ b) = handed_in a ++ handed_in b.
Proof. intros. apply flat_map_app. Qed.
Lemma begun_reply : forall s a n, begun_in (reply_to s a n) = [].
Proof. intros. unfold reply_to. destruct (memb _ _); reflexivity. Qed.
Lemma handed_reply : forall s a n, handed_in (reply_to s a n) = [].
Proof. intros. unfold reply_to. destruct (memb _ _); reflexivity. Qed.

Lemma work_snoc : forall tr o l, work (tr ++ [(o, l)]) = work tr ++ filter is_work l.
Proof. intros. unfold work. now rewrite outs_snoc, filter_app. Qed.

(** Since the last [get]. *)
Definition seg (tr : list eitem) : list eitem := fold_left (fun acc i => if is_get (fst i) then [] else acc ++ [i]) tr [].
Lemma seg_snoc : forall tr i, seg (tr ++ [i]) = if is_get (fst i) then [] else seg tr ++ [i].
Proof. intros. unfold seg. rewrite fold_left_app. reflexivity. Qed.
Lemma seg_of : forall A now l B, no_get B -> seg (A ++ (EGet now, l) :: B) = B.
Proof.
  intros A now l B. induction B as [|i B IH] using rev_ind; intros H.
  - rewrite seg_snoc. reflexivity.
  - unfold no_get, ops_of in H. rewrite map_app in H. apply Forall_app in H as [H1 H2]. inversion H2 as [|? ? H3 _]; subst.
    change (A ++ (EGet now, l) :: B ++ [i]) with (A ++ ((EGet now, l) :: B) ++ [i]).
    rewrite app_assoc, seg_snoc, H3. now rewrite (IH H1).
Qed.

Lemma prod_snoc : forall tr i, fold_left prod_step (tr ++ [i]) (0, []) = prod_step (fold_left prod_step tr (0, [])) i.
Proof. intros. now rewrite fold_left_app. Qed.
Lemma calls_snoc : forall m tr o l, calls m (tr ++ [(o, l)]) =
    calls m tr ++ flat_map (fun x => match x with Process k src e => if Nat.eqb k m then [(src, e)] else [] | _ => [] end) l.
Proof. intros. unfold calls. rewrite outs_snoc. apply flat_map_app. Qed.

(** ** Created events *)

Lemma create_events_spec : forall rs srv ss k now i es, create_events (Eid srv ss (Z.of_nat k)) now rs = (i, es) ->
    i = Eid srv ss (Z.of_nat (k + List.length rs)) /\ map ev_id es = ids_from srv ss (S k) (List.length rs) /\
    Forall (fun e => ev_ts e = now) es /\ map reg_of es = rs.
Proof.
  induction rs as [|r rs IH]; intros srv ss k now i es H; cbn [create_events] in H.
  - injection H as <- <-. cbn. rewrite Nat.add_0_r. repeat split; constructor.
  - unfold create_event in H. cbn [eid_server eid_session eid_instance] in H.
    replace (Z.of_nat k + 1)%Z with (Z.of_nat (S k)) in H by lia.
    destruct (create_events _ now rs) as [i1 es1] eqn:E. injection H as <- <-.
    destruct (IH _ _ _ _ _ _ E) as (A & B & C & D). split; [|split; [|split]].
    + rewrite A. f_equal. cbn [List.length]. lia.
    + cbn [map List.length ev_id]. unfold ids_from in *. cbn [seq map]. now rewrite B.
    + constructor; auto.
    + cbn [map]. rewrite D. unfold reg_of. cbn. destruct r. reflexivity.
Qed.

Lemma ids_from_app : forall srv ss k a b, ids_from srv ss k (a + b) = ids_from srv ss k a ++ ids_from srv ss (k + a) b.
Proof. intros. unfold ids_from. rewrite seq_app, map_app. reflexivity. Qed.

(** ** Pairs *)

Definition of_module (m : nat) (l : list (nat * (source * event))) : list (source * event) :=
  map snd (filter (fun p => Nat.eqb (fst p) m) l).
Lemma of_module_app : forall m a b, of_module m (a ++ b) = of_module m a ++ of_module m b.
Proof. intros. unfold of_module. now rewrite filter_app, map_app. Qed.
Lemma of_module_one : forall m k x, of_module m [(k, x)] = if Nat.eqb k m then [x] else [].
Proof. intros. unfold of_module. cbn. destruct (Nat.eqb k m); reflexivity. Qed.

Lemma of_module_col : forall m k ins, of_module m (map (fun x => (k, x)) ins) = if Nat.eqb k m then ins else [].
Proof.
  intros m k ins. unfold of_module. induction ins as [|x ins IH]; cbn.
  - destruct (Nat.eqb k m); reflexivity.
  - destruct (Nat.eqb k m) eqn:E; cbn; rewrite IH; reflexivity.
Qed.

Lemma of_module_pairs : forall n ins m, m < n -> of_module m (pairs n ins) = ins.
Proof.
  intros n ins m H. unfold pairs.
  assert (G : forall n k, of_module m (flat_map (fun m0 => map (fun x => (m0, x)) ins) (seq k n)) = if (Nat.leb k m && Nat.ltb m (k + n))%bool then ins else []).
  { clear. induction n as [|n IH]; intros k; cbn [seq flat_map].
    - destruct (Nat.leb_spec k m), (Nat.ltb_spec m (k + 0)); try lia; reflexivity.
    - rewrite of_module_app, of_module_col, IH.
      destruct (Nat.eqb_spec k m), (Nat.leb_spec (S k) m), (Nat.ltb_spec m (S k + n)), (Nat.leb_spec k m), (Nat.ltb_spec m (k + S n)); cbn [andb]; try lia; rewrite ?app_nil_r; reflexivity. }
  rewrite G. destruct (Nat.ltb_spec m (0 + n)); [reflexivity|lia].
Qed.

Lemma pairs_lt : forall n ins m x, In (m, x) (pairs n ins) -> m < n /\ In x ins.
Proof.
  intros n ins m x H. unfold pairs in H. apply in_flat_map in H as (k & Hk & H). apply in_map_iff in H as (y & E & Hy).
  injection E as -> ->. apply in_seq in Hk. split; [lia|auto].
Qed.

(** ** The session in progress *)

Definition cur_session (last : event_id) (tr : list eitem) : Z :=
  (eid_session last + Z.of_nat (List.length (begun tr)) + (if shut_in tr then 1 else 0))%Z.

(** Events of the session so far and the last id. *)
Record made (last : event_id) (tr : list eitem) (i : event_id) (now : timestamp) (all : list event) : Prop := {
  md_ids : map ev_id all = ids_from (eid_server last) (cur_session last tr) 1 (List.length all);
  md_ts : Forall (fun e => ev_ts e = now) all;
  md_last : i = Eid (eid_server last) (cur_session last tr) (Z.of_nat (List.length all)) }.

Record called (ms : list node) (last : event_id) (tr : list eitem) (r : request) (all : list event)
  (outs : list (source * event)) (fin todo : list (nat * (source * event))) (done ins T : list (source * event)) (procs : list eout) : Prop := {
  ca_all : map snd T = all;
  ca_src : map (fun x => (fst x, reg_of (snd x))) T = map (fun y => (rq_src r, y)) (rq_events r) ++ produced (seg tr);
  ca_T : T = done ++ ins ++ outs;
  ca_pairs : pairs (List.length ms) ins = fin ++ todo;
  ca_calls : forall m, calls m (seg tr) = filter (wants ms m) (done ++ of_module m fin);
  ca_outs : work (seg tr) = map (fun m => Started m (cur_session last tr)) (seq 0 (List.length ms)) ++ procs;
  ca_procs : Forall (fun x => is_process x = true) procs }.

Definition sess_inv (ms : list node) (last : event_id) (tr : list eitem) (s : estate) : Prop :=
  match e_loop s with
  | PInit | PWait => eid_server (e_last s) = eid_server last /\ eid_session (e_last s) = cur_session last tr
  | PStart r now l =>
      last_get (ops_of tr) = Some now /\ made last tr (e_last s) now [] /\
      exists l0, seq 0 (List.length ms) = l0 ++ l /\ work (seg tr) = map (fun m => Started m (cur_session last tr)) l0 /\
                 produced (seg tr) = []
  | PRun r now all outs todo =>
      last_get (ops_of tr) = Some now /\ made last tr (e_last s) now all /\
      exists fin done ins T procs, called ms last tr r all outs fin todo done ins T procs
  | PCall r now all outs m todo =>
      last_get (ops_of tr) = Some now /\ made last tr (e_last s) now all /\ fst (fold_left prod_step (seg tr) (0, [])) = m /\
      exists fin done ins T procs, called ms last tr r all outs fin todo done ins T procs
  | PStop r all l =>
      exists now, last_get (ops_of tr) = Some now /\ made last tr (e_last s) now all /\
      exists T procs l0, map snd T = all /\
        map (fun x => (fst x, reg_of (snd x))) T = map (fun y => (rq_src r, y)) (rq_events r) ++ produced (seg tr) /\
        (forall m, calls m (seg tr) = filter (wants ms m) T) /\
        work (seg tr) = map (fun m => Started m (cur_session last tr)) (seq 0 (List.length ms)) ++ procs ++
                           map (fun m => Stopped m (cur_session last tr)) l0 /\
        Forall (fun x => is_process x = true) procs /\ seq 0 (List.length ms) = l0 ++ l
  | PReg r all =>
      exists now, last_get (ops_of tr) = Some now /\ made last tr (e_last s) now all /\
      exists rest, map reg_of all = rq_events r ++ rest
  | PLast | PDone => eid_server (e_last s) = eid_server last
  end.

Lemma last_get_snoc : forall ops o, last_get (ops ++ [o]) = match o with EGet now => Some now | _ => last_get ops end.
Proof.
  induction ops as [|a ops IH]; intros o; cbn [app last_get].
  - destruct o; reflexivity.
  - rewrite IH. destruct o; reflexivity.
Qed.
Lemma shut_snoc : forall tr o l, shut_in (tr ++ [(o, l)]) = (shut_in tr || is_shut o)%bool.
Proof. intros. unfold shut_in. rewrite ops_snoc, existsb_app. cbn. now rewrite orb_false_r. Qed.
Lemma cur_same : forall last tr o l, begun_in l = [] -> is_shut o = false -> cur_session last (tr ++ [(o, l)]) = cur_session last tr.
Proof. intros last tr o l H1 H2. unfold cur_session. now rewrite begun_snoc, H1, shut_snoc, H2, app_nil_r, orb_false_r. Qed.

Definition ended (l : eloop) : bool := match l with PLast | PDone => true | _ => false end.

Lemma shut_ended : forall ms size last tr s, engine_run ms size last tr s -> shut_in tr = true -> ended (e_loop s) = true.
Proof.
  intros ms size last tr s H. unfold engine_run in H. remember (estart last) as s0 eqn:E0.
  induction H as [s|s tr s1 o l s2 H IH Hx]; intros Hs; [discriminate|]. specialize (IH E0).
  rewrite shut_snoc in Hs.
  destruct o; einvs Hx; cbn [set_eloop set_last e_loop is_shut ended] in *; rewrite ?orb_false_r in Hs; auto;
    try (specialize (IH Hs)); try (rewrite Heqe in IH); cbn [ended] in IH; try discriminate; auto.
Qed.

Definition calls_in (m : nat) (l : list eout) : list (source * event) :=
  flat_map (fun x => match x with Process k src e => if Nat.eqb k m then [(src, e)] else [] | _ => [] end) l.

(** Steps of others. *)
Definition quiet (o : eop) (l : list eout) : Prop :=
  is_get o = false /\ is_shut o = false /\ filter is_work l = [] /\ (forall rs, o <> EProcessed rs).

Lemma quiet_begun : forall l, filter is_work l = [] -> begun_in l = [] /\ forall m, calls_in m l = [].
Proof.
  induction l as [|x l IH]; intros H; [split; reflexivity|]. cbn [filter] in H. destruct (is_work x) eqn:E; [discriminate|].
  destruct x; try discriminate. destruct (IH H) as [A B]. split; [exact A|]. intros m. exact (B m).
Qed.

Lemma quiet_prod : forall st o l, quiet o l -> prod_step st (o, l) = st.
Proof.
  intros st o l (_ & _ & H & Hp). unfold prod_step. destruct o; try (exfalso; eapply Hp; reflexivity);
    destruct l as [|x l]; auto; destruct x; auto; discriminate.
Qed.

Lemma made_quiet : forall last tr o l i now all, begun_in l = [] -> is_shut o = false ->
    made last tr i now all -> made last (tr ++ [(o, l)]) i now all.
Proof. intros last tr o l i now all H1 H2 [A B C]. constructor; rewrite ?cur_same by auto; auto. Qed.

Lemma sess_quiet : forall ms last tr s o l s2, quiet o l -> sess_inv ms last tr s ->
    e_loop s2 = e_loop s -> e_last s2 = e_last s -> sess_inv ms last (tr ++ [(o, l)]) s2.
Proof.
  intros ms last tr s o l s2 Q I El Ei. destruct Q as (Q1 & Q2 & Q3 & Q4) eqn:EQ. clear EQ.
  destruct (quiet_begun l Q3) as [B1 B2].
  assert (C : cur_session last (tr ++ [(o, l)]) = cur_session last tr) by (apply cur_same; auto).
  assert (L : last_get (ops_of (tr ++ [(o, l)])) = last_get (ops_of tr))
    by (rewrite ops_snoc, last_get_snoc; destruct o; auto; discriminate).
  assert (S : seg (tr ++ [(o, l)]) = seg tr ++ [(o, l)]) by (rewrite seg_snoc; cbn [fst]; now rewrite Q1).
  assert (W : work (seg (tr ++ [(o, l)])) = work (seg tr)) by (rewrite S, work_snoc, Q3; apply app_nil_r).
  assert (P : fold_left prod_step (seg (tr ++ [(o, l)])) (0, []) = fold_left prod_step (seg tr) (0, [])).
  { rewrite S, prod_snoc. apply quiet_prod. repeat split; auto. }
  assert (K : forall m, calls m (seg (tr ++ [(o, l)])) = calls m (seg tr)).
  { intros m. rewrite S, calls_snoc. fold (calls_in m l). rewrite B2. apply app_nil_r. }
  assert (P2 : produced (seg (tr ++ [(o, l)])) = produced (seg tr)) by (unfold produced; now rewrite P).
  assert (M : forall now all, made last tr (e_last s) now all -> made last (tr ++ [(o, l)]) (e_last s2) now all).
  { intros now all H. rewrite Ei. apply made_quiet; auto. }
  assert (CA : forall r all outs fin todo done ins T procs, called ms last tr r all outs fin todo done ins T procs ->
      called ms last (tr ++ [(o, l)]) r all outs fin todo done ins T procs).
  { intros r all outs fin todo done ins T procs [D1 D2 D3 D4 D5 D6 D7]. constructor; auto.
    - now rewrite P2.
    - intros m. rewrite K. auto.
    - now rewrite W, C. }
  unfold sess_inv in *. rewrite El. destruct (e_loop s); rewrite ?Ei, ?C, ?L, ?W, ?P2; auto.
  - destruct I as (I1 & I2 & I3). split; [auto|]. split; [rewrite <- Ei; auto|auto].
  - destruct I as (I1 & I2 & fin & done & ins & T & procs & I3). split; [auto|]. split; [rewrite <- Ei; auto|]. eauto 10.
  - destruct I as (I1 & I2 & I4 & fin & done & ins & T & procs & I3). split; [auto|]. split; [rewrite <- Ei; auto|].
    split; [rewrite P; auto|]. eauto 10.
  - destruct I as (now & I1 & I2 & T & procs & l0 & A1 & A2 & A3 & A4 & A5 & A6). exists now. split; [auto|]. split; [rewrite <- Ei; auto|].
    exists T, procs, l0. repeat split; auto. intros m. rewrite K. auto.
  - destruct I as (now & I1 & I2 & I3). exists now. split; [auto|]. split; [rewrite <- Ei; auto|auto].
Qed.

Lemma sess_ids : forall ms last tr s, sess_inv ms last tr s -> eid_server (e_last s) = eid_server last /\
    (ended (e_loop s) = false -> eid_session (e_last s) = cur_session last tr).
Proof.
  intros ms last tr s I. unfold sess_inv in I. destruct (e_loop s); cbn [ended].
  - destruct I; auto.
  - destruct I; auto.
  - destruct I as (_ & [_ _ ->] & _). auto.
  - destruct I as (_ & [_ _ ->] & _). auto.
  - destruct I as (_ & [_ _ ->] & _). auto.
  - destruct I as (now & _ & [_ _ ->] & _). auto.
  - destruct I as (now & _ & [_ _ ->] & _). auto.
  - split; [auto|discriminate].
  - split; [auto|discriminate].
Qed.

Lemma wants_eq : forall ms m src e, wants ms m (src, e) = match nth_error ms m with Some n => node_matches n (ev_type e) | None => false end.
Proof. reflexivity. Qed.

Lemma wants_none : forall ms m l, List.length ms <= m -> filter (wants ms m) l = [].
Proof.
  intros ms m l H. induction l as [|x l IH]; cbn [filter]; auto.
  replace (wants ms m x) with false; [exact IH|]. unfold wants. apply nth_error_None in H. now rewrite H.
Qed.
Lemma map_pair_fst : forall A B (a : A) (l : list B), map (fun x => snd x) (map (fun y => (a, y)) l) = l.
Proof. intros. rewrite map_map. apply map_id. Qed.
Lemma reg_srcs : forall (a : source) es, map (fun x : source * event => (fst x, reg_of (snd x))) (map (fun e => (a, e)) es) = map (fun y => (a, y)) (map reg_of es).
Proof. intros. rewrite !map_map. reflexivity. Qed.

Lemma sess_step : forall ms size last tr s o l s2, (ended (e_loop s) = false -> shut_in tr = false) ->
    sess_inv ms last tr s -> eexec ms size s o = Some (s2, l) -> sess_inv ms last (tr ++ [(o, l)]) s2.
Proof.
  intros ms size last tr s o l s2 Hsh I Hx. destruct (sess_ids _ _ _ _ I) as [ID1 ID2].
  destruct o.
  - (* begin *) einvs Hx. eapply sess_quiet with (s := set_eloop s PWait); [repeat split; try discriminate| | reflexivity | reflexivity].
    unfold sess_inv in *. rewrite Heqe in I. exact I.
  - einvs Hx. unfold sess_inv in *. cbn [e_loop e_last]. auto.
  - einvs Hx; (eapply sess_quiet; [repeat split; try discriminate|exact I|reflexivity|reflexivity]).
  - einvs Hx; (eapply sess_quiet; [repeat split; try discriminate|exact I|reflexivity|reflexivity]).
  - einvs Hx; (eapply sess_quiet; [repeat split; try discriminate|exact I|reflexivity|reflexivity]).
  - einvs Hx; (eapply sess_quiet; [repeat split; try discriminate|exact I|reflexivity|reflexivity]).
  - (* get *) einvs Hx. unfold sess_inv. cbn [e_loop e_last]. rewrite ops_snoc, last_get_snoc, seg_snoc. cbn [fst is_get].
    split; [reflexivity|]. split.
    + assert (C : cur_session last (tr ++ [(EGet now, [Begin r])]) = (eid_session (e_last s) + 1)%Z).
      { rewrite ID2 by reflexivity. unfold cur_session. rewrite begun_snoc, shut_snoc, Hsh by reflexivity. cbn [is_shut orb begun_in flat_map app].
        rewrite app_length. cbn [List.length]. lia. }
      constructor; [reflexivity|constructor|]. unfold create_session. rewrite C, ID1. reflexivity.
    + exists []. repeat split.
  - (* step *)
    cbn [eexec] in Hx. unfold sess_inv in I. destruct (e_loop s) as [| |r now [|m0 l0]|r now all outs [|[m0 [src e]] todo]| |r all [|m0 l0]| | |] eqn:El; try discriminate.
    + (* events are created *)
      destruct I as (I1 & [M1 M2 M3] & l0 & L1 & L2 & L3). cbn [List.length] in M3. rewrite M3 in Hx.
      destruct (create_events _ now (rq_events r)) as [i es] eqn:Ec. injection Hx as <- <-.
      apply (create_events_spec _ _ _ 0) in Ec as (E1 & E2 & E3 & E4). rewrite app_nil_r in L1.
      assert (Le : List.length es = List.length (rq_events r)) by (now rewrite <- E4, map_length).
      unfold sess_inv. cbn [set_last e_loop e_last]. rewrite ops_snoc, last_get_snoc. split; [auto|]. split.
      { constructor; rewrite ?cur_same by reflexivity; auto; rewrite Le; auto. }
      exists [], [], (map (fun e => (rq_src r, e)) es), (map (fun e => (rq_src r, e)) es), [].
      constructor.
      * rewrite map_map. apply map_id.
      * rewrite reg_srcs, E4, seg_snoc. cbn [fst is_get]. unfold produced. rewrite prod_snoc. cbn [prod_step].
        unfold produced in L3. rewrite L3, app_nil_r. reflexivity.
      * cbn [app]. now rewrite app_nil_r.
      * reflexivity.
      * intros m. rewrite seg_snoc. cbn [fst is_get]. rewrite calls_snoc. cbn [flat_map]. rewrite app_nil_r.
        unfold of_module. cbn [filter map app].
        assert (Hc : forall x, In x (calls m (seg tr)) -> False).
        { intros x Hin. unfold calls in Hin. apply in_flat_map in Hin as (y & Hy & Hin).
          assert (Hw : In y (work (seg tr))) by (unfold work; apply filter_In; split; [auto|destruct y; auto; destruct Hin]).
          rewrite L2 in Hw. apply in_map_iff in Hw as (k & <- & _). destruct Hin. }
        destruct (calls m (seg tr)) as [|x t]; [reflexivity|]. exfalso. apply (Hc x). left. reflexivity.
      * rewrite seg_snoc. cbn [fst is_get]. rewrite work_snoc, L2, L1, cur_same by reflexivity. cbn [filter]. reflexivity.
      * constructor.
    + (* a module is told *)
      injection Hx as <- <-. destruct I as (I1 & I2 & l1 & L1 & L2 & L3). unfold sess_inv. cbn [set_eloop e_loop e_last].
      rewrite ops_snoc, last_get_snoc, seg_snoc. cbn [fst is_get]. split; [auto|]. split; [apply made_quiet; auto|].
      exists (l1 ++ [m0]). split; [rewrite <- app_assoc; exact L1|]. split.
      * rewrite work_snoc, L2, map_app, cur_same by reflexivity. cbn [filter is_work map]. now rewrite ID2 by reflexivity.
      * unfold produced. rewrite prod_snoc. exact L3.
    + (* end of a round *)
      destruct I as (I1 & I2 & fin & done & ins & T & procs & [D1 D2 D3 D4 D5 D6 D7]). rewrite app_nil_r in D4.
      assert (K : forall m, calls m (seg tr) = filter (wants ms m) (done ++ ins)).
      { intros m. rewrite D5. destruct (Nat.ltb_spec m (List.length ms)) as [Hm|Hm]; [rewrite <- D4, of_module_pairs; auto|].
        now rewrite !wants_none. }
      destruct outs as [|x outs].
      * injection Hx as <- <-. unfold sess_inv. cbn [set_eloop e_loop e_last]. exists now. rewrite ops_snoc, last_get_snoc, seg_snoc. cbn [fst is_get].
        split; [auto|]. split; [apply made_quiet; auto|]. exists T, procs, []. rewrite app_nil_r in D3. unfold produced. rewrite prod_snoc. cbn [prod_step].
        repeat split; auto.
        -- intros m. rewrite calls_snoc. cbn [flat_map]. rewrite app_nil_r, K by auto. now rewrite D3.
        -- rewrite work_snoc, D6, cur_same by reflexivity. cbn [filter map]. rewrite !app_nil_r. reflexivity.
      * injection Hx as <- <-. unfold sess_inv. cbn [set_eloop e_loop e_last]. rewrite ops_snoc, last_get_snoc.
        split; [auto|]. split; [apply made_quiet; auto|]. exists [], (done ++ ins), (x :: outs), T, procs.
        constructor; rewrite ?seg_snoc; cbn [fst is_get]; auto.
        -- unfold produced. rewrite prod_snoc. exact D2.
        -- rewrite D3, app_nil_r, app_assoc. reflexivity.
        -- intros m. rewrite calls_snoc. cbn [flat_map of_module filter map]. rewrite !app_nil_r. auto.
        -- rewrite work_snoc, D6, cur_same by reflexivity. cbn [filter]. now rewrite app_nil_r.
    + (* a pair *)
      destruct I as (I1 & I2 & fin & done & ins & T & procs & [D1 D2 D3 D4 D5 D6 D7]).
      assert (D4' : pairs (List.length ms) ins = (fin ++ [(m0, (src, e))]) ++ todo) by (rewrite <- app_assoc; exact D4).
      assert (Hx' : (if match nth_error ms m0 with Some n => node_matches n (ev_type e) | None => false end
                     then Some (set_eloop s (PCall r now all outs m0 todo), [Process m0 src e])
                     else Some (set_eloop s (PRun r now all outs todo), [])) = Some (s2, l)) by (destruct outs; exact Hx).
      clear Hx. rename Hx' into Hx.
      destruct (match nth_error ms m0 with Some n => node_matches n (ev_type e) | None => false end) eqn:Em;
        injection Hx as <- <-; unfold sess_inv; cbn [set_eloop e_loop e_last]; rewrite ops_snoc, last_get_snoc;
        (split; [auto|]); (split; [apply made_quiet; auto|]).
      * rewrite !seg_snoc. cbn [fst is_get]. rewrite prod_snoc. split; [reflexivity|].
        exists (fin ++ [(m0, (src, e))]), done, ins, T, (procs ++ [Process m0 src e]).
        constructor; rewrite ?seg_snoc; cbn [fst is_get]; auto.
        -- unfold produced. rewrite prod_snoc. exact D2.
        -- intros m. rewrite calls_snoc, of_module_app, of_module_one. cbn [flat_map]. rewrite app_nil_r, D5, app_assoc, filter_app by auto.
           rewrite filter_app. destruct (Nat.eqb_spec m0 m) as [->|N]; [|cbn [filter]; now rewrite filter_app].
           cbn [filter]. rewrite wants_eq, Em, filter_app. reflexivity.
        -- rewrite work_snoc, D6, cur_same by reflexivity. cbn [filter is_work]. now rewrite app_assoc.
        -- apply Forall_app. split; [auto|]. constructor; [reflexivity|constructor].
      * exists (fin ++ [(m0, (src, e))]), done, ins, T, procs.
        constructor; rewrite ?seg_snoc; cbn [fst is_get]; auto.
        -- unfold produced. rewrite prod_snoc. exact D2.
        -- intros m. rewrite calls_snoc, of_module_app, of_module_one. cbn [flat_map]. rewrite app_nil_r, D5, app_assoc, filter_app by auto.
           rewrite filter_app. destruct (Nat.eqb_spec m0 m) as [->|N]; [|cbn [filter]; now rewrite !filter_app, app_nil_r].
           cbn [filter]. rewrite wants_eq, Em, filter_app. now rewrite app_nil_r.
        -- rewrite work_snoc, D6, cur_same by reflexivity. cbn [filter]. now rewrite app_nil_r.
    + (* handed to the backend *)
      injection Hx as <- <-. destruct I as (now & I1 & I2 & T & procs & l0 & A1 & A2 & A3 & A4 & A5 & A6).
      unfold sess_inv. cbn [set_eloop e_loop e_last]. exists now. rewrite ops_snoc, last_get_snoc. split; [auto|]. split; [apply made_quiet; auto|].
      exists (map snd (produced (seg tr))).
      assert (E : map snd (map (fun x => (fst x, reg_of (snd x))) T) = map reg_of all) by (rewrite <- A1, !map_map; reflexivity).
      rewrite <- E, A2, map_app. f_equal. rewrite map_map. apply map_id.
    + injection Hx as <- <-. destruct I as (now & I1 & I2 & T & procs & l1 & A1 & A2 & A3 & A4 & A5 & A6).
      unfold sess_inv. cbn [set_eloop e_loop e_last]. exists now. rewrite ops_snoc, last_get_snoc, seg_snoc. cbn [fst is_get].
      split; [auto|]. split; [apply made_quiet; auto|]. exists T, procs, (l1 ++ [m0]). unfold produced. rewrite prod_snoc. cbn [prod_step].
      repeat split; auto.
      * intros m. rewrite calls_snoc. cbn [flat_map]. rewrite app_nil_r. auto.
      * rewrite work_snoc, A4, cur_same, map_app by reflexivity. cbn [filter is_work map]. rewrite ID2 by reflexivity. now rewrite !app_assoc.
      * now rewrite <- app_assoc.
  - (* processed *)
    cbn [eexec] in Hx. unfold sess_inv in I. destruct (e_loop s) as [| | | |r now all outs m0 todo| | | |] eqn:El; try discriminate.
    destruct I as (I1 & [M1 M2 M3] & I4 & fin & done & ins & T & procs & [D1 D2 D3 D4 D5 D6 D7]). rewrite M3 in Hx.
    destruct (create_events _ now rs) as [i es] eqn:Ec. injection Hx as <- <-.
    apply create_events_spec in Ec as (E1 & E2 & E3 & E4).
    assert (Le : List.length es = List.length rs) by (now rewrite <- E4, map_length).
    unfold sess_inv. cbn [set_last e_loop e_last]. rewrite ops_snoc, last_get_snoc. split; [auto|]. split.
    { constructor; rewrite ?cur_same by reflexivity.
      - rewrite map_app, M1, E2, app_length, ids_from_app, Le. reflexivity.
      - apply Forall_app; auto.
      - rewrite E1, app_length, Le. reflexivity. }
    exists fin, done, ins, (T ++ map (fun e => (module_source m0, e)) es), procs.
    constructor; rewrite ?seg_snoc; cbn [fst is_get]; auto.
    + rewrite map_app, D1, map_map. cbn [snd]. now rewrite map_id.
    + rewrite map_app, D2, reg_srcs, E4. unfold produced. rewrite prod_snoc. cbn [prod_step fst snd]. rewrite I4, <- app_assoc. reflexivity.
    + rewrite D3, <- !app_assoc. reflexivity.
    + intros m. rewrite calls_snoc. cbn [flat_map]. rewrite app_nil_r. auto.
    + rewrite work_snoc, D6, cur_same by reflexivity. cbn [filter]. now rewrite app_nil_r.
  - (* registered *)
    einvs Hx; unfold sess_inv; cbn [set_eloop e_loop e_last]; rewrite cur_same by (auto; apply begun_reply); split; [exact ID1|apply ID2; reflexivity].
  - einvs Hx; unfold create_event in Heqp; injection Heqp as <- <-; exact ID1.
  - einvs Hx; unfold create_event in Heqp; injection Heqp as <- <-; exact ID1.
  - einvs Hx. unfold sess_inv in *. rewrite Heqe in I. cbn. auto.
Qed.

Lemma sess_run : forall ms size last tr s, engine_run ms size last tr s -> sess_inv ms last tr s.
Proof.
  intros ms size last tr s H. assert (G := H). unfold engine_run in G. remember (estart last) as s0 eqn:E0. revert H.
  induction G as [s|s tr s1 o l s2 G IH Hx]; intros H.
  - subst s. unfold sess_inv, cur_session. cbn. split; [auto|lia].
  - subst s. eapply sess_step; [|apply IH; auto; exact G|exact Hx].
    intros He. destruct (shut_in tr) eqn:E; auto. rewrite (shut_ended ms size last tr s1 G E) in He. discriminate.
Qed.
