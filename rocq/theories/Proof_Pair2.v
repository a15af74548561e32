(** Two servers, one of which follows the other one: numbers of queries, steps
    of the abstract remote. *)
From Coq Require Import String Bool ZArith Arith Lia Sorted Permutation List.
From Verif Require Import Base Kv Model_Types Model_Codec Keys Spec_Order Proof_Order Model_Lmdb Model_LmdbSys Spec_Lmdb Spec_LmdbContent Spec_LmdbQuery
  Proof_Lmdb3 Proof_Lmdb8 Proof_Lmdb9 Proof_Lmdb10 Proof_Lmdb12 Proof_Lmdb13 Proof_Lmdb14 Proof_Lmdb15 Model_LmdbFlush Spec_LmdbFlush Proof_LmdbFlush Proof_LmdbFlush4
  Model_Sync Spec_Sync Proof_Sync Proof_Sync2 Proof_Sync3 Proof_Sync4 Proof_Sync5 Proof_Sync6 Model_Replica Spec_Replica Proof_Replica Proof_Replica2 Proof_Replica3 Proof_Replica4 Proof_Replica5
  Model_Pair Spec_Pair Proof_Pair.
Import ListNotations.
Open Scope list_scope.
Open Scope nat_scope.

(** ** Numbers of queries *)

Definition jq (j : job) : list nat := match job_query j with Some q => [q] | None => [] end.
Definition numbers (s : sys) : list nat := flat_map jq (s_jobs s) ++ map ready_id (s_ready s).

Lemma take_ready_perm : forall q l r l', take_ready q l = Some (r, l') -> Permutation l (r :: l') /\ ready_id r = q.
Proof.
  intros q. induction l as [|x l IH]; intros r l' H; cbn [take_ready] in H; [discriminate|].
  destruct (Nat.eqb q (ready_id x)) eqn:E.
  - injection H as <- <-. apply Nat.eqb_eq in E. split; [reflexivity|congruence].
  - destruct (take_ready q l) as [[y l2]|]; [|discriminate]. injection H as <- <-. destruct (IH _ _ eq_refl) as [P Q]. split; [|exact Q].
    rewrite P. apply perm_swap.
Qed.

(** Numbers stay, are used up, or are new. *)
Definition opq (o : op) : list nat := match o with OServer q _ | OTs q _ => [q] | _ => [] end.
Lemma numbers_step : forall O s o s' x, exec O s o = Some (s', x) -> (NoDup (numbers s)) -> (forall q, In q (opq o) -> ~ In q (numbers s)) ->
    NoDup (numbers s') /\ forall q, In q (numbers s') -> In q (numbers s) \/ In q (opq o).
Proof.
  intros O s o s' x He Hn Hf.
  assert (Hpush : forall j, (forall q, job_query j = Some q -> ~ In q (numbers s)) ->
    NoDup (numbers (push s j)) /\ forall q, In q (numbers (push s j)) -> In q (numbers s) \/ job_query j = Some q).
  { intros j Hj. unfold numbers in *. cbn [push s_jobs s_ready]. rewrite flat_map_app. cbn [flat_map]. rewrite app_nil_r, <- app_assoc.
    unfold jq at 2 4. destruct (job_query j) as [q|]; cbn [app].
    - split.
      + apply NoDup_Add with (a := q) (l := flat_map jq (s_jobs s) ++ map ready_id (s_ready s)); [apply Add_app|]. split; auto.
      + intros n Hi. apply in_app_or in Hi as [Hi|[<-|Hi]]; auto; left; apply in_or_app; auto.
    - split; auto. }
  destruct o as [es|  |now|p|q p|q p| |q|c].
  - cbn [exec] in He. destruct (register_events _ _ _ _) as [[m ch]|]; [|discriminate]. injection He as <- <-. auto.
  - cbn [exec] in He. injection He as <- <-. unfold numbers in *. cbn [s_jobs s_ready]. rewrite flat_map_app. cbn [flat_map jq job_query]. rewrite !app_nil_r. auto.
  - cbn [exec] in He. injection He as <- <-. destruct (Hpush (JCleanup now)) as [A B]; [discriminate|]. split; auto.
    intros q Hq. destruct (B q Hq) as [Hi|Hi]; [auto|discriminate].
  - cbn [exec] in He. injection He as <- <-. auto.
  - destruct (exec_query O s (OServer q p) q s' x eq_refl He) as [[-> _]|(j & -> & _ & Hj)]; auto.
    destruct (Hpush j) as [A B]; [intros n Hn'; apply Hf; left; congruence|]. split; auto.
    intros n Hi. destruct (B n Hi) as [C|C]; auto. right. left. congruence.
  - destruct (exec_query O s (OTs q p) q s' x eq_refl He) as [[-> _]|(j & -> & _ & Hj)]; auto.
    destruct (Hpush j) as [A B]; [intros n Hn'; apply Hf; left; congruence|]. split; auto.
    intros n Hi. destruct (B n Hi) as [C|C]; auto. right. left. congruence.
  - cbn [exec] in He. unfold work in He.
    assert (Hmove : forall js r db q, jq (hd (JCleanup (Ts 0 0)) (s_jobs s)) = [q] -> s_jobs s = hd (JCleanup (Ts 0 0)) (s_jobs s) :: js -> ready_id r = q ->
      NoDup (numbers (done_ s db js (s_ready s ++ [r]))) /\ forall n, In n (numbers (done_ s db js (s_ready s ++ [r]))) -> In n (numbers s) \/ In n (opq OWork)).
    { intros js r db q J E R. assert (P : Permutation (numbers s) (numbers (done_ s db js (s_ready s ++ [r])))).
      { unfold numbers. rewrite E. cbn [flat_map done_ s_jobs s_ready]. rewrite J, map_app. cbn [map app]. rewrite R, app_assoc. apply Permutation_cons_append. }
      split; [eapply Permutation_NoDup; eauto|]. intros n Hi. left. eapply Permutation_in; [symmetry; exact P|exact Hi]. }
    destruct (s_jobs s) as [|[c|now|q p max g|q p part sub max g pre f] js] eqn:Ej.
    + injection He as <- <-. auto.
    + injection He as <- <-. unfold numbers in *. rewrite Ej in *. cbn [flat_map jq job_query app done_ s_jobs s_ready] in *. auto.
    + destruct (cleanup _ _ _ _) as [d' ks]. injection He as <- <-. unfold numbers in *. rewrite Ej in *. cbn [flat_map jq job_query app done_ s_jobs s_ready] in *. auto.
    + destruct (query_refs _ _ _ _ _); [|discriminate]. injection He as <- <-. eapply Hmove; reflexivity.
    + destruct (query_stored _ _ _ _ _ _). injection He as <- <-. eapply Hmove; reflexivity.
  - cbn [exec] in He. destruct (take_ready _ _) as [[r rs]|] eqn:E; [|discriminate]. injection He as <- <-. apply take_ready_perm in E as [P _].
    unfold numbers in *. cbn [done_ s_jobs s_ready].
    assert (P2 : Permutation (flat_map jq (s_jobs s) ++ map ready_id (s_ready s)) (ready_id r :: flat_map jq (s_jobs s) ++ map ready_id rs)).
    { rewrite (Permutation_map ready_id P). cbn [map]. symmetry. apply Permutation_middle. }
    split.
    + apply (Permutation_NoDup P2) in Hn. now inversion Hn.
    + intros n Hi. left. eapply Permutation_in; [symmetry; exact P2|now right].
  - cbn [exec] in He. destruct (open_db c (s_disk s)) as [[db m]|]; [|discriminate]. injection He as <- <-. split; [constructor|]. intros q [].
Qed.

Lemma pair_numbers : forall OA OB cfA cfB sv tr st, pair OA OB cfA cfB sv tr st ->
    NoDup (numbers (f_sys (d_remote st))) /\ forall q, In q (numbers (f_sys (d_remote st))) -> In q (d_used st).
Proof.
  intros OA OB cfA cfB sv tr st H. induction H as [a b Ha Hb|tr F top q us c s o xs l F' c' q' H IH He Hu Hr|tr F top us c s last q x H IH Hq Hn He
    |tr F top q us c s o l c' xs s' H IH Ho Hy Hr Hm|tr F top q us c s o x s' H IH He Hb Hr|tr F top q us c s H IH|tr F top q us c s cf x r H IH He]; cbn [d_remote d_used] in *; auto.
  - unfold start in Ha. destruct (open_db cfA empty_db) as [[db m]|]; [|discriminate]. injection Ha as <-. split; [constructor|intros q []].
  - destruct IH as [I1 I2]. destruct (usual_fine _ _ _ _ Hu) as [U1 _].
    destruct (fexec_inner _ _ _ _ _ _ He U1) as [[-> ->]|(p & r & -> & Hx & Hp)].
    + split; auto. intros n Hi. apply I2 in Hi. destruct o as [| | | | | |[]| | | | | | | |]; auto; now right.
    + destruct (numbers_step _ _ _ _ _ Hx I1) as [A B].
      { intros n Hi Hi2. apply I2 in Hi2. destruct Hp as [(es & -> & ->)|[[-> ->]|[-> Ho]]]; [destruct Hi|destruct Hi|]. destruct p; try destruct Hi as [<-|[]]; try destruct Hi; exact (Hu Hi2). }
      split; auto. intros n Hi. destruct (B n Hi) as [C|C].
      * apply I2 in C. destruct o as [| | | | | |[]| | | | | | | |]; auto; now right.
      * destruct Hp as [(es & -> & ->)|[[-> ->]|[-> Ho]]]; [destruct C|destruct C|]. destruct p; try destruct C as [<-|[]]; try destruct C; now left.
  - destruct IH as [I1 I2]. destruct (numbers_step _ _ _ _ _ He I1) as [A B].
    { intros n [<-|[]] Hi. apply I2 in Hi. contradiction. }
    cbn [set_sys f_sys]. split; auto. intros n Hi. destruct (B n Hi) as [C|[<-|[]]]; [right; auto|now left].
  - destruct IH as [I1 I2]. destruct (numbers_step _ _ _ _ _ He I1) as [A B]; [intros n []|]. cbn [fstart f_sys]. split; auto.
    intros n Hi. destruct (B n Hi) as [C|[]]; auto.
Qed.
