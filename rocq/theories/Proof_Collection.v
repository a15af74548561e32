From Coq Require Import String Bool Arith Lia List.
From Coq Require Import FinFun.
From Verif Require Import Base Model_Types Model_Subscription Model_Collection
  Spec_Subscription Spec_Collection Proof_Subscription Proof_Subscription2.
Import ListNotations.
Open Scope string_scope.
Open Scope list_scope.

Section Coll.
  Variable V : Type.
  Variable veqb : V -> V -> bool.
  Hypothesis veqb_spec : forall a b, veqb a b = true <-> a = b.

  Lemma v_dec : forall a b : V, a = b \/ a <> b.
  Proof.
    intros a b. destruct (veqb a b) eqn:E; [left; now apply veqb_spec|right].
    intros H. apply veqb_spec in H. congruence.
  Qed.

  (** * The specification under one more operation *)

  Lemma snoc_split : forall A (l : list A) x b y a, l ++ [x] = b ++ y :: a ->
      (a = [] /\ l = b /\ x = y) \/ (exists a', a = a' ++ [x] /\ l = b ++ y :: a').
  Proof.
    intros A l x b y a. destruct a as [|z a] using rev_ind.
    - intros H. apply app_inj_tail in H as [-> ->]. auto.
    - intros H. replace (b ++ y :: a ++ [z]) with ((b ++ y :: a) ++ [z]) in H
        by now rewrite <- app_assoc.
      apply app_inj_tail in H as [-> ->]. eauto.
  Qed.

  Lemma selected_nil : forall v t, ~ selected (@nil (coll_op V)) v t.
  Proof. intros v t (b & s & a & H & _). destruct b; discriminate. Qed.

  Lemma selected_add : forall ops s (v' v : V) t,
      selected (ops ++ [OpAdd s v']) v t <->
      (v = v' /\ node_matches s t = true) \/ selected ops v t.
  Proof.
    intros ops s v' v t. split.
    - intros (b & s' & a & H & Hn & Hm). apply snoc_split in H as [(-> & -> & [= -> ->])|(a' & -> & ->)]; auto.
      right. exists b, s', a'. repeat split; auto. intros Hi. apply Hn. apply in_or_app; auto.
    - intros [[-> Hm]|(b & s' & a & -> & Hn & Hm)].
      + exists ops, s, []. auto.
      + exists b, s', (a ++ [OpAdd s v']). rewrite <- app_assoc. repeat split; auto.
        intros Hi. apply in_app_or in Hi as [Hi|[Hi|[]]]; [auto|discriminate].
  Qed.

  Lemma selected_remove : forall ops (v' v : V) t,
      selected (ops ++ [OpRemove v']) v t <-> v <> v' /\ selected ops v t.
  Proof.
    intros ops v' v t. split.
    - intros (b & s' & a & H & Hn & Hm). apply snoc_split in H as [(_ & _ & ?)|(a' & -> & ->)]; [discriminate|].
      split.
      + intros ->. apply Hn. apply in_or_app; cbn; auto.
      + exists b, s', a'. repeat split; auto. intros Hi. apply Hn. apply in_or_app; auto.
    - intros [Hv (b & s' & a & -> & Hn & Hm)].
      exists b, s', (a ++ [OpRemove v']). rewrite <- app_assoc. repeat split; auto.
      intros Hi. apply in_app_or in Hi as [Hi|[[= ->]|[]]]; auto.
  Qed.

  Lemma ops_ok_snoc : forall ops (op : coll_op V), ops_ok (ops ++ [op]) -> ops_ok ops.
  Proof. intros ops op H s v Hi. apply (H s v). apply in_or_app; auto. Qed.

  Lemma ops_ok_last : forall ops s (v : V), ops_ok (ops ++ [OpAdd s v]) -> py_subscription s.
  Proof. intros ops s v H. apply (H s v). apply in_or_app; cbn; auto. Qed.

  (** * PyList *)

  Lemma pylist_inv : forall ops, ops_ok ops ->
      let c := pylist_run veqb ops in
      NoDup (keys c) /\ (forall v s, dget veqb v c = Some s -> py_subscription s) /\
      forall v t, (exists s, dget veqb v c = Some s /\ node_matches s t = true) <-> selected ops v t.
  Proof.
    intros ops. unfold pylist_run. induction ops as [|op ops IH] using rev_ind; intros Hok.
    - cbn. split; [constructor|]. split; [discriminate|]. intros v t. split.
      + intros (s & H & _). discriminate.
      + intros H. now apply selected_nil in H.
    - rewrite fold_left_app. cbn [fold_left].
      specialize (IH (ops_ok_snoc _ _ Hok)). cbn zeta in *.
      set (c := fold_left (pylist_op veqb) ops []) in *.
      destruct IH as (Hnd & Hps & Hsel). destruct op as [s0 v0|v0]; cbn [pylist_op].
      + pose proof (ops_ok_last _ _ _ Hok) as Hs0.
        set (s1 := match dget veqb v0 c with Some s => py_union s [s0] | None => s0 end).
        assert (Hs1 : py_subscription s1).
        { unfold s1. destruct (dget veqb v0 c) eqn:E; auto. apply ps_union; eauto. }
        assert (Hm1 : forall t, node_matches s1 t = true <->
           node_matches s0 t = true \/ exists s, dget veqb v0 c = Some s /\ node_matches s t = true).
        { intros t. unfold s1. destruct (dget veqb v0 c) as [s|] eqn:E.
          - rewrite final_C03 by eauto. rewrite !Exists_cons, Exists_nil. split.
            + intros [H|[H|[]]]; eauto. + intros [H|(s' & [= <-] & H)]; auto.
          - split; auto. intros [H|(s' & H & _)]; [auto|discriminate]. }
        split; [now apply NoDup_dset|]. split.
        * intros v s. destruct (v_dec v v0) as [->|Hn].
          -- rewrite dget_dset_same by auto. intros [= <-]. auto.
          -- rewrite dget_dset_other by auto. apply Hps.
        * intros v t. rewrite selected_add. destruct (v_dec v v0) as [->|Hn].
          -- rewrite dget_dset_same by auto. split.
             ++ intros (s & [= <-] & H). apply Hm1 in H as [H|H]; auto. rewrite Hsel in H. auto.
             ++ intros H. exists s1. split; auto. apply Hm1. rewrite Hsel. intuition.
          -- rewrite dget_dset_other by auto. rewrite Hsel. intuition.
      + split; [now apply NoDup_ddel|]. split.
        * intros v s. destruct (v_dec v v0) as [->|Hn].
          -- rewrite dget_ddel_same by auto. discriminate.
          -- rewrite dget_ddel_other by auto. apply Hps.
        * intros v t. rewrite selected_remove. destruct (v_dec v v0) as [->|Hn].
          -- rewrite dget_ddel_same by auto. split; [intros (s & H & _); discriminate|intuition].
          -- rewrite dget_ddel_other by auto. rewrite Hsel. intuition.
  Qed.

  Lemma pylist_correct : forall ops, ops_ok ops -> forall t,
      NoDup (pylist_get (pylist_run veqb ops) t) /\
      forall v, In v (pylist_get (pylist_run veqb ops) t) <-> selected ops v t.
  Proof.
    intros ops Hok t. destruct (pylist_inv ops Hok) as (Hnd & Hps & Hsel).
    unfold pylist_get. split.
    - clear -Hnd. induction (pylist_run veqb ops) as [|[v s] c IH]; cbn; [constructor|].
      inversion Hnd; subst. destruct (node_matches s t); auto. cbn. constructor; auto.
      intros Hin. apply H1. apply in_map_iff in Hin as [x [Hx Hin]]. apply filter_In in Hin as [Hin _].
      apply in_map_iff. eauto.
    - intros v. rewrite <- Hsel, in_map_iff. split.
      + intros ([v' s] & Hv & Hin). cbn in Hv. subst. apply filter_In in Hin as [Hin Hm].
        exists s. split; auto. now apply In_dget.
      + intros (s & Hg & Hm). exists (v, s). split; auto. apply filter_In. split; auto.
        eapply dget_In; eauto.
  Qed.

  (** * PyTree *)

  Fixpoint pt_has (n : ptree V) (q : etype) (v : V) : Prop :=
    let 'PT values children := n in
    match q with
    | [] => In v values
    | h :: q' => match sget h children with Some c => pt_has c q' v | None => False end
    end.

  Lemma vmem_In : forall v l, vmem veqb v l = true <-> In v l.
  Proof.
    intros. unfold vmem. rewrite existsb_exists. split.
    - intros (x & Hin & Hx). apply veqb_spec in Hx. now subst.
    - intros H. exists v. split; auto. now apply veqb_spec.
  Qed.

  Lemma has_empty : forall q v, ~ pt_has (PT [] []) q v.
  Proof. destruct q; cbn; auto. Qed.

  Lemma ptree_add_spec : forall q n v,
      match ptree_add veqb n q v with
      | Some n' => ~ pt_has n q v /\ forall q' u, pt_has n' q' u <-> pt_has n q' u \/ (q' = q /\ u = v)
      | None => pt_has n q v
      end.
  Proof.
    induction q as [|h q IH]; intros [values children] v; cbn [ptree_add].
    - destruct (vmem veqb v values) eqn:E.
      + now apply vmem_In in E.
      + split; [cbn; rewrite <- vmem_In; congruence|].
        intros [|h q'] u; cbn.
        * rewrite in_app_iff. cbn. intuition congruence.
        * intuition discriminate.
    - set (child := match sget h children with Some c => c | None => PT [] [] end).
      specialize (IH child v).
      assert (Hc : forall q u, match sget h children with Some c => pt_has c q u | None => False end
                               <-> pt_has child q u).
      { intros q0 u. unfold child. destruct (sget h children); [reflexivity|].
        split; [easy|apply has_empty]. }
      destruct (ptree_add veqb child q v) as [c|].
      + destruct IH as [Hn IH]. split.
        * cbn. rewrite Hc. auto.
        * intros [|h' q'] u; cbn; [intuition discriminate|].
          destruct (string_dec h' h) as [->|Hh].
          -- rewrite (dget_dset_same seqb_spec), IH, Hc.
             split; (intros [Hx|[Hx ->]]; [auto|right]); [now subst|]. inversion Hx; auto.
          -- rewrite (dget_dset_other seqb_spec) by auto. intuition congruence.
      + cbn. now apply Hc.
  Qed.

  Lemma ptree_remove_spec : forall q n v, pt_has n q v ->
      exists n', ptree_remove veqb n q v = Some n' /\
      forall q' u, pt_has n' q' u <-> pt_has n q' u /\ ~ (q' = q /\ u = v).
  Proof.
    induction q as [|h q IH]; intros [values children] v H; cbn [ptree_remove].
    - cbn in H. apply vmem_In in H. rewrite H. eexists; split; [reflexivity|].
      intros [|h q'] u; cbn.
      + rewrite filter_In, negb_true_iff. split.
        * intros [Hi Hv]. split; auto. intros [_ ->]. rewrite (proj2 (veqb_spec v v) eq_refl) in Hv. discriminate.
        * intros [Hi Hv]. split; auto. destruct (veqb v u) eqn:E; auto.
          apply veqb_spec in E. subst. exfalso; auto.
      + intuition discriminate.
    - cbn in H. destruct (sget h children) as [c|] eqn:E; [|easy].
      destruct (IH _ _ H) as (c' & -> & Hc'). eexists; split; [reflexivity|].
      intros [|h' q'] u; cbn; [intuition discriminate|].
      destruct (string_dec h' h) as [->|Hh].
      + rewrite (dget_dset_same seqb_spec), Hc', E.
        split; intros [Hx Hy]; (split; [auto|]); intros [Hz ->]; apply Hy; split; auto; congruence.
      + rewrite (dget_dset_other seqb_spec) by auto. intuition congruence.
  Qed.

  Lemma ptree_get_spec : forall t n v,
      In v (ptree_get n t) <-> exists q, pt_has n q v /\ matches_query_type t q = true.
  Proof.
    induction t as [|h t IH]; intros [values children] v; cbn [ptree_get]; rewrite !in_app_iff.
    - split.
      + intros [H|H].
        * destruct (sget "*" children) as [[vs cs]|] eqn:E; [|easy].
          exists ["*"]. cbn. rewrite E. auto.
        * exists []. auto.
      + intros ([|h q] & H & Hm); [auto|].
        destruct (string_dec h "*") as [->|Hh].
        * destruct q as [|h' q]; [|rewrite mqt_cons_nil in Hm; [discriminate|easy]].
          cbn in H. destruct (sget "*" children) as [[vs cs]|]; auto.
        * rewrite mqt_cons_nil in Hm; [discriminate|easy].
    - split.
      + intros [H|[H|H]].
        * destruct (sget "*" children) as [[vs cs]|] eqn:E; [|easy].
          exists ["*"]. cbn [pt_has]. rewrite E. split; [auto|apply mqt_star].
        * destruct (sget h children) as [c|] eqn:E; [|easy]. apply IH in H as (q & Hq & Hm).
          destruct (string_dec h "*") as [->|Hh].
          -- destruct q as [|h' q].
             ++ exists ["*"]. cbn [pt_has]. rewrite E. split; [destruct c; auto|apply mqt_star].
             ++ exists ("*" :: h' :: q). cbn [pt_has]. rewrite E. split; auto.
                rewrite mqt_cons by discriminate. now rewrite Hm.
          -- exists (h :: q). cbn [pt_has]. rewrite E. split; auto.
             rewrite mqt_cons by easy. now rewrite seqb_refl, orb_true_r, Hm.
        * destruct (sget "?" children) as [c|] eqn:E; [|easy]. apply IH in H as (q & Hq & Hm).
          exists ("?" :: q). cbn [pt_has]. rewrite E. split; auto.
          rewrite mqt_cons by easy. now rewrite Hm.
      + intros ([|x q] & H & Hm); [rewrite mqt_nil in Hm; discriminate|].
        cbn [pt_has] in H.
        destruct (string_dec x "*") as [->|Hx]; [destruct q as [|y q]|].
        * left. destruct (sget "*" children) as [[vs cs]|]; auto.
        * rewrite mqt_cons in Hm by discriminate. cbn in Hm. apply andb_true_iff in Hm as [Hh Hm].
          apply seqb_spec in Hh. subst. right; left.
          destruct (sget "*" children) as [c|]; [|easy]. apply IH; eauto.
        * rewrite mqt_cons in Hm by easy. apply andb_true_iff in Hm as [Hh Hm]. right.
          apply orb_true_iff in Hh as [Hh|Hh]; apply seqb_spec in Hh; subst.
          -- right. destruct (sget "?" children) as [c|]; [|easy]. apply IH; eauto.
          -- left. destruct (sget x children) as [c|]; [|easy]. apply IH; eauto.
  Qed.

  (** Listed query types are distinct. *)
  Lemma to_qts_nodup : forall n, wf n -> NoDup (node_to_query_types n).
  Proof.
    induction n as [l ch IH] using node_ind'. intros Hw.
    destruct (wf_inv _ _ Hw) as [->|(Hs & Hnd & Hch)].
    { replace (node_to_query_types (Node l [("*", Node true [])])) with [["*"]] by (destruct l; reflexivity).
      repeat constructor; auto. }
    cbn [node_to_query_types].
    assert (H : NoDup (flat_map (fun hc => map (cons (fst hc)) (node_to_query_types (snd hc))) ch)).
    { clear Hw Hs. induction ch as [|[k c] ch IHc]; cbn; [constructor|].
      inversion Hnd; subst. inversion IH; subst.
      apply NoDup_app_intro.
      - apply FinFun.Injective_map_NoDup; [intros a b [= ->]; auto|]. apply H3. eapply Hch; left; reflexivity.
      - apply IHc; auto. intros. eapply Hch; right; eauto.
      - intros q Hq Hq'. apply in_map_iff in Hq as (q1 & <- & Hq).
        apply in_flat_map in Hq' as ([k' c'] & Hin & Hq'). apply in_map_iff in Hq' as (q2 & Heq & _).
        cbn in Heq. inversion Heq; subst. apply H1. apply in_map_iff. exists (k, c'); auto. }
    destruct (l && negb (smem "*" ch)); cbn; auto. constructor; auto.
    intros Hin. apply in_flat_map in Hin as (x & _ & Hin). apply in_map_iff in Hin as (y & Hy & _). discriminate.
  Qed.

  Definition pt_inv (c : pytree V) : Prop :=
    (forall q v, pt_has (pt_root c) q v <-> In q (pt_paths veqb c v)) /\
    (forall v, NoDup (pt_paths veqb c v)) /\ NoDup (keys (pt_nodes c)).

  Lemma pytree_add_inv : forall qs c v, pt_inv c ->
      let c' := pytree_add veqb c qs v in
      pt_inv c' /\
      (forall u, u <> v -> pt_paths veqb c' u = pt_paths veqb c u) /\
      (forall q, In q (pt_paths veqb c' v) -> In q (pt_paths veqb c v) \/ In q qs) /\
      (forall q, In q (pt_paths veqb c v) -> In q (pt_paths veqb c' v)) /\
      (NoDup qs -> (forall q, In q qs -> ~ In q (pt_paths veqb c v)) ->
       forall q, In q qs -> In q (pt_paths veqb c' v)).
  Proof.
    induction qs as [|q qs IH]; intros c v Hinv; cbn [pytree_add].
    - cbn zeta. repeat split; auto; try apply Hinv; easy.
    - pose proof (ptree_add_spec q (pt_root c) v) as Ha. destruct Hinv as (Hh & Hnd & Hk).
      destruct (ptree_add veqb (pt_root c) q v) as [root|] eqn:E.
      + destruct Ha as [Hn Ha].
        set (c1 := PyTree root (dset veqb v (pt_paths veqb c v ++ [q]) (pt_nodes c))).
        assert (P1 : pt_paths veqb c1 v = pt_paths veqb c v ++ [q]).
        { unfold pt_paths at 1, c1. cbn [pt_nodes]. now rewrite dget_dset_same. }
        assert (P2 : forall u, u <> v -> pt_paths veqb c1 u = pt_paths veqb c u).
        { intros u Hu. unfold pt_paths, c1. cbn [pt_nodes]. now rewrite dget_dset_other. }
        assert (Hinv1 : pt_inv c1).
        { split; [|split].
          - intros q' u. unfold c1 at 1. cbn [pt_root]. rewrite Ha, Hh.
            destruct (v_dec u v) as [->|Hu].
            + rewrite P1, in_app_iff. cbn. intuition.
            + rewrite P2 by auto. intuition.
          - intros u. destruct (v_dec u v) as [->|Hu].
            + rewrite P1. apply NoDup_snoc; auto. rewrite <- Hh. exact Hn.
            + rewrite P2; auto.
          - unfold c1. cbn [pt_nodes]. now apply NoDup_dset. }
        destruct (IH c1 v Hinv1) as (I1 & I2 & I3 & I4 & I5).
        cbn zeta. split; [exact I1|]. split; [|split; [|split]].
        * intros u Hu. rewrite I2 by auto. auto.
        * intros q' Hq'. apply I3 in Hq' as [Hq'|Hq']; [|cbn; auto].
          rewrite P1, in_app_iff in Hq'. cbn in *. intuition.
        * intros q' Hq'. apply I4. rewrite P1, in_app_iff. auto.
        * intros Hq Hno q' [<-|Hq'].
          -- apply I4. rewrite P1, in_app_iff. cbn; auto.
          -- inversion Hq; subst. apply I5; auto. intros q2 Hq2. rewrite P1, in_app_iff.
             intros [Hi|[<-|[]]]; [|auto]. apply (Hno q2); cbn; auto.
      + cbn zeta. split; [split; auto|]. repeat split; auto.
        intros Hq Hno. exfalso. apply (Hno q); cbn; auto. now apply Hh.
  Qed.

  Lemma pytree_removes_spec : forall paths root v, NoDup paths ->
      (forall q, In q paths -> pt_has root q v) ->
      exists r, pytree_removes veqb root paths v = Some r /\
        forall q u, pt_has r q u <-> pt_has root q u /\ ~ (In q paths /\ u = v).
  Proof.
    induction paths as [|q paths IH]; intros root v Hnd Hh; cbn [pytree_removes].
    - exists root. split; auto. intros. cbn. intuition.
    - inversion Hnd; subst. destruct (ptree_remove_spec q root v) as (r & -> & Hr); [apply Hh; cbn; auto|].
      destruct (IH r v) as (r' & -> & Hr'); auto.
      { intros q' Hq'. apply Hr. split; [apply Hh; cbn; auto|]. intros [-> _]. auto. }
      exists r'. split; auto. intros q' u. rewrite Hr', Hr. cbn. intuition.
  Qed.

  Lemma pytree_ops_app : forall a b c,
      pytree_ops veqb c (a ++ b) = match pytree_ops veqb c a with Some c' => pytree_ops veqb c' b | None => None end.
  Proof.
    induction a as [|op a IH]; intros b c; cbn; auto. destruct (pytree_op veqb c op); auto.
  Qed.

  Definition active (ops : list (coll_op V)) (v : V) : Prop :=
    exists b s a, ops = b ++ OpAdd s v :: a /\ ~ In (OpRemove v) a.

  Lemma active_snoc_add : forall ops s v u, active ops u \/ u = v -> active (ops ++ [OpAdd s v]) u.
  Proof.
    intros ops s v u [(b & s' & a & -> & Hn)| ->].
    - exists b, s', (a ++ [OpAdd s v]). rewrite <- app_assoc. split; auto.
      intros Hi. apply in_app_or in Hi as [Hi|[Hi|[]]]; [auto|discriminate].
    - exists ops, s, []. auto.
  Qed.

  Lemma active_snoc_remove : forall ops v u, active ops u -> u <> v -> active (ops ++ [OpRemove v]) u.
  Proof.
    intros ops v u (b & s' & a & -> & Hn) Hu.
    exists b, s', (a ++ [OpRemove v]). rewrite <- app_assoc. split; auto.
    intros Hi. apply in_app_or in Hi as [Hi|[[= ->]|[]]]; auto.
  Qed.

  Lemma added_once_snoc : forall ops (op : coll_op V), added_once (ops ++ [op]) -> added_once ops.
  Proof.
    intros ops op H a s v b s' c ->. apply (H a s v b s' (c ++ [op])).
    rewrite <- app_assoc. cbn. now rewrite <- app_assoc.
  Qed.

  Lemma added_once_last : forall ops s v, added_once (ops ++ [OpAdd s v]) -> ~ active ops v.
  Proof.
    intros ops s v H (b & s' & a & -> & Hn). apply Hn. apply (H b s' v a s []).
    now rewrite <- app_assoc.
  Qed.

  (** matches through listed query types *)
  Lemma listed_match : forall s t, py_subscription s ->
      (node_matches s t = true <-> exists q, In q (node_to_query_types s) /\ matches_query_type t q = true).
  Proof.
    intros s t Hs. rewrite to_qts_matches by now apply py_subscription_wf. apply existsb_exists.
  Qed.

  Lemma pytree_inv_run : forall ops, ops_ok ops ->
      exists c, pytree_run veqb ops = Some c /\ pt_inv c /\
        (forall v t, (exists q, In q (pt_paths veqb c v) /\ matches_query_type t q = true) -> selected ops v t) /\
        (forall v q, In q (pt_paths veqb c v) -> active ops v) /\
        (added_once ops -> forall v t, selected ops v t ->
            exists q, In q (pt_paths veqb c v) /\ matches_query_type t q = true).
  Proof.
    intros ops. unfold pytree_run. induction ops as [|op ops IH] using rev_ind; intros Hok.
    - eexists; split; [reflexivity|]. split.
      + split; [|split]; cbn.
        * intros q v. unfold pt_paths. cbn. split; [apply has_empty|easy].
        * intros; constructor. * constructor.
      + split; [intros v t (q & [] & _)|]. split; [easy|]. intros _ v t H. now apply selected_nil in H.
    - destruct (IH (ops_ok_snoc _ _ Hok)) as (c & Hc & Hinv & Hs & Hact & Hcomp).
      rewrite pytree_ops_app, Hc. cbn [pytree_ops]. destruct op as [s v|v]; cbn [pytree_op].
      + eexists; split; [reflexivity|].
        pose proof (ops_ok_last _ _ _ Hok) as Hps.
        destruct (pytree_add_inv (node_to_query_types s) c v Hinv) as (I1 & I2 & I3 & I4 & I5).
        set (c' := pytree_add veqb c (node_to_query_types s) v) in *. clearbody c'.
        split; [exact I1|]. split; [|split].
        * intros u t (q & Hq & Hm). apply selected_add. destruct (v_dec u v) as [->|Hu].
          -- apply I3 in Hq as [Hq|Hq]; [right; eauto|left]. split; auto. apply listed_match; eauto.
          -- rewrite I2 in Hq by auto. right; eauto.
        * intros u q Hq. apply active_snoc_add. destruct (v_dec u v) as [->|Hu]; auto.
          rewrite I2 in Hq by auto. left; eauto.
        * intros Honce u t Hsel. apply selected_add in Hsel as [[-> Hm]|Hsel].
          -- apply listed_match in Hm as (q & Hq & Hm); auto. exists q. split; auto. apply I5; auto.
             ++ apply to_qts_nodup. now apply py_subscription_wf.
             ++ intros q' _ Hq'. apply Hact in Hq'. eapply added_once_last; eauto.
          -- apply added_once_snoc in Honce. apply Hcomp in Hsel as (q & Hq & Hm); auto.
             exists q. split; auto. destruct (v_dec u v) as [->|Hu]; auto. rewrite I2; auto.
      + destruct Hinv as (Hh & Hnd & Hk).
        destruct (pytree_removes_spec (pt_paths veqb c v) (pt_root c) v) as (r & -> & Hr); auto.
        { intros q. apply Hh. }
        eexists; split; [reflexivity|]. set (c' := PyTree r (ddel veqb v (pt_nodes c))).
        assert (P1 : pt_paths veqb c' v = []).
        { unfold pt_paths, c'. cbn [pt_nodes]. now rewrite dget_ddel_same. }
        assert (P2 : forall u, u <> v -> pt_paths veqb c' u = pt_paths veqb c u).
        { intros u Hu. unfold pt_paths, c'. cbn [pt_nodes]. now rewrite dget_ddel_other. }
        split; [split; [|split]|].
        * intros q u. unfold c' at 1. cbn [pt_root]. rewrite Hr, Hh.
          destruct (v_dec u v) as [->|Hu]; [rewrite P1; cbn; intuition|rewrite P2 by auto; intuition].
        * intros u. destruct (v_dec u v) as [->|Hu]; [rewrite P1; constructor|rewrite P2; auto].
        * unfold c'. cbn [pt_nodes]. now apply NoDup_ddel.
        * split; [|split].
          -- intros u t (q & Hq & Hm). destruct (v_dec u v) as [->|Hu]; [rewrite P1 in Hq; easy|].
             rewrite P2 in Hq by auto. apply selected_remove. eauto.
          -- intros u q Hq. destruct (v_dec u v) as [->|Hu]; [rewrite P1 in Hq; easy|].
             rewrite P2 in Hq by auto. apply active_snoc_remove; eauto.
          -- intros Honce u t Hsel. apply selected_remove in Hsel as [Hu Hsel]. rewrite P2 by auto.
             apply Hcomp; auto. eapply added_once_snoc; eauto.
  Qed.

  Lemma pytree_sound : forall ops, ops_ok ops -> exists c, pytree_run veqb ops = Some c /\
      forall t v, In v (pytree_get c t) -> selected ops v t.
  Proof.
    intros ops Hok. destruct (pytree_inv_run ops Hok) as (c & Hc & (Hh & _) & Hs & _). exists c. split; auto.
    intros t v H. apply ptree_get_spec in H as (q & Hq & Hm). apply Hs. exists q. split; auto. now apply Hh.
  Qed.

  Lemma pytree_exact : forall ops, ops_ok ops -> added_once ops -> exists c, pytree_run veqb ops = Some c /\
      forall t v, In v (pytree_get c t) <-> selected ops v t.
  Proof.
    intros ops Hok Honce. destruct (pytree_inv_run ops Hok) as (c & Hc & (Hh & _) & Hs & _ & Hcomp).
    exists c. split; auto. intros t v. split.
    - intros H. apply ptree_get_spec in H as (q & Hq & Hm). apply Hs. exists q. split; auto. now apply Hh.
    - intros H. apply Hcomp in H as (q & Hq & Hm); auto. apply ptree_get_spec. exists q. split; auto. now apply Hh.
  Qed.

  (** * CTree *)

  Inductive ctwf : ctree V -> Prop :=
  | ctwf_i : forall vs avs ch q, ~ In "*" (keys ch) -> ~ In "?" (keys ch) ->
      (forall k c, In (k, c) ch -> ctwf c) -> (forall c, q = Some c -> ctwf c) -> ctwf (CT vs avs ch q).

  Lemma ctwf_new : ctwf (@ct_new V).
  Proof. constructor; cbn; auto; easy. Qed.

  Fixpoint ct_has (n : ctree V) (q : etype) (id : nat) (v : V) : Prop :=
    let 'CT values asterisk children question := n in
    match q with
    | [] => In (id, v) values
    | h :: q' =>
        if h =? "*" then q' = [] /\ In (id, v) asterisk
        else if h =? "?" then match question with Some c => ct_has c q' id v | None => False end
        else match sget h children with Some c => ct_has c q' id v | None => False end
    end.

  Lemma ct_has_new : forall q id v, ~ ct_has (@ct_new V) q id v.
  Proof.
    intros [|h q] id v; cbn; auto. destruct (h =? "*"); [intuition|]. destruct (h =? "?"); auto.
  Qed.

  Lemma keys_sset_in : forall (A : Type) k k' (x : A) d, In k (keys (sset k' x d)) -> k = k' \/ In k (keys d).
  Proof.
    intros A k k' x d. rewrite keys_dset. destruct (smem k' d); auto.
    rewrite in_app_iff. cbn. intuition.
  Qed.

  Lemma ctree_add_spec : forall q n id v, valid_query q -> ctwf n ->
      ctwf (ctree_add n q id v) /\
      forall q' id' u, ct_has (ctree_add n q id v) q' id' u <->
                       ct_has n q' id' u \/ (q' = q /\ id' = id /\ u = v).
  Proof.
    induction q as [|h q IH]; intros [vs avs ch qu] id v Hv Hw; cbn [ctree_add]; inversion Hw; subst.
    - split; [constructor; auto|]. intros [|h q'] id' u; cbn.
      + split; [intros [[= <- <-]|]|intros [|(_ & -> & ->)]]; auto.
      + destruct (h =? "*"), (h =? "?"); intuition discriminate.
    - apply valid_cons in Hv as [Hs Hv]. destruct (h =? "*") eqn:Eh.
      + apply seqb_spec in Eh. subst. specialize (Hs eq_refl). subst.
        split; [constructor; auto|]. intros [|h q'] id' u; cbn.
        * intuition discriminate.
        * destruct (h =? "*") eqn:E.
          -- apply seqb_spec in E. subst. split.
             ++ intros [-> [[= <- <-]|Hi]]; auto.
             ++ intros [[-> Hi]|([= ->] & -> & ->)]; auto.
          -- apply String.eqb_neq in E. destruct (h =? "?"); intuition congruence.
      + destruct (h =? "?") eqn:Eq.
        * apply seqb_spec in Eq. subst.
          set (c := match qu with Some c => c | None => ct_new end).
          assert (Hwc : ctwf c) by (unfold c; destruct qu; auto using ctwf_new).
          destruct (IH c id v Hv Hwc) as [Hw' Hh'].
          split; [constructor; auto; intros ? [= <-]; auto|].
          intros [|h q'] id' u; cbn [ct_has].
          -- intuition discriminate.
          -- destruct (h =? "*") eqn:E; [apply seqb_spec in E; subst; intuition congruence|].
             destruct (h =? "?") eqn:E'; [|apply String.eqb_neq in E'; intuition congruence].
             apply seqb_spec in E'. subst. rewrite Hh'. unfold c.
             destruct qu as [x|]; [|pose proof (ct_has_new q' id' u)];
               (split; [intros [Hx|(-> & -> & ->)]|intros [Hx|([= ->] & -> & ->)]]); auto; easy.
        * set (c := match sget h ch with Some c => c | None => ct_new end).
          assert (Hwc : ctwf c).
          { unfold c; destruct (sget h ch) eqn:Eg; auto using ctwf_new. apply (dget_In seqb_spec) in Eg. eauto. }
          apply String.eqb_neq in Eh, Eq.
          destruct (IH c id v Hv Hwc) as [Hw' Hh'].
          split.
          { constructor; auto.
            - intros Hi. apply keys_sset_in in Hi as [|]; auto.
            - intros Hi. apply keys_sset_in in Hi as [|]; auto.
            - intros k x Hi. apply (In_dset seqb_spec) in Hi as [[-> ->]|[_ Hi]]; eauto. }
          intros [|h' q'] id' u; cbn [ct_has].
          -- intuition discriminate.
          -- destruct (h' =? "*") eqn:E; [apply seqb_spec in E; subst; intuition congruence|].
             destruct (h' =? "?") eqn:E'; [apply seqb_spec in E'; subst; intuition congruence|].
             destruct (string_dec h' h) as [->|Hne].
             ++ rewrite (dget_dset_same seqb_spec), Hh'. unfold c.
                destruct (sget h ch) as [x|]; [|pose proof (ct_has_new q' id' u)];
                  (split; [intros [Hx|(-> & -> & ->)]|intros [Hx|([= ->] & -> & ->)]]); auto; easy.
             ++ rewrite (dget_dset_other seqb_spec) by auto. intuition congruence.
  Qed.

  Lemma ctree_remove_spec : forall q n id, valid_query q -> ctwf n ->
      ctwf (ctree_remove n q id) /\
      forall q' id' u, ct_has (ctree_remove n q id) q' id' u <->
                       ct_has n q' id' u /\ ~ (q' = q /\ id' = id).
  Proof.
    assert (Hun : forall (l : list (nat * V)) id id' u,
       In (id', u) (filter (fun e : nat * V => negb (Nat.eqb id (fst e))) l) <-> In (id', u) l /\ id' <> id).
    { intros. rewrite filter_In. cbn. rewrite negb_true_iff, Nat.eqb_neq. intuition. }
    induction q as [|h q IH]; intros [vs avs ch qu] id Hv Hw; cbn [ctree_remove]; inversion Hw; subst.
    - split; [constructor; auto|]. intros [|h q'] id' u; cbn [ct_has].
      + rewrite Hun. intuition.
      + destruct (h =? "*"), (h =? "?"); intuition discriminate.
    - apply valid_cons in Hv as [Hs Hv]. destruct (h =? "*") eqn:Eh.
      + apply seqb_spec in Eh. subst. specialize (Hs eq_refl). subst.
        split; [constructor; auto|]. intros [|h q'] id' u; cbn [ct_has].
        * intuition discriminate.
        * destruct (h =? "*") eqn:E.
          -- apply seqb_spec in E. subst. rewrite Hun. split.
             ++ intros [-> [Hi Hn]]. split; auto. intros [_ ?]; auto.
             ++ intros [[-> Hi] Hn]. split; [auto|]. split; [auto|]. intros ->. apply Hn. auto.
          -- apply String.eqb_neq in E. destruct (h =? "?"); intuition congruence.
      + destruct (h =? "?") eqn:Eq.
        * apply seqb_spec in Eq. subst. destruct qu as [c|]; cbn [option_map].
          -- destruct (IH c id Hv) as [Hw' Hh']; auto.
             split; [constructor; auto; intros ? [= <-]; auto|].
             intros [|h q'] id' u; cbn [ct_has]; [intuition discriminate|].
             destruct (h =? "*") eqn:E; [apply seqb_spec in E; subst; intuition congruence|].
             destruct (h =? "?") eqn:E'; [|apply String.eqb_neq in E'; intuition congruence].
             apply seqb_spec in E'. subst. rewrite Hh'.
             split; intros [Hx Hy]; (split; [auto|]); intros [Hz ->]; apply Hy; split; auto; congruence.
          -- split; auto. intros [|h q'] id' u; cbn [ct_has]; [intuition discriminate|].
             destruct (h =? "*") eqn:E; [apply seqb_spec in E; subst; intuition congruence|].
             destruct (h =? "?") eqn:E'; [intuition|]. apply String.eqb_neq in E'; intuition congruence.
        * apply String.eqb_neq in Eh, Eq. destruct (sget h ch) as [c|] eqn:Eg.
          -- pose proof (dget_In seqb_spec _ _ _ Eg) as Hin.
             destruct (IH c id Hv) as [Hw' Hh']; eauto. split.
             { constructor; auto.
               - intros Hi. apply keys_sset_in in Hi as [|]; auto.
               - intros Hi. apply keys_sset_in in Hi as [|]; auto.
               - intros k x Hi. apply (In_dset seqb_spec) in Hi as [[-> ->]|[_ Hi]]; eauto. }
             intros [|h' q'] id' u; cbn [ct_has]; [intuition discriminate|].
             destruct (h' =? "*") eqn:E; [apply seqb_spec in E; subst; intuition congruence|].
             destruct (h' =? "?") eqn:E'; [apply seqb_spec in E'; subst; intuition congruence|].
             destruct (string_dec h' h) as [->|Hne].
             ++ rewrite (dget_dset_same seqb_spec), Hh', Eg.
                split; intros [Hx Hy]; (split; [auto|]); intros [Hz ->]; apply Hy; split; auto; congruence.
             ++ rewrite (dget_dset_other seqb_spec) by auto. intuition congruence.
          -- split; auto. intros [|h' q'] id' u; cbn [ct_has]; [intuition discriminate|].
             destruct (h' =? "*") eqn:E; [apply seqb_spec in E; subst; intuition congruence|].
             destruct (h' =? "?") eqn:E'; [apply seqb_spec in E'; subst; intuition congruence|].
             destruct (string_dec h' h) as [->|Hne]; [rewrite Eg; intuition|intuition congruence].
  Qed.

  Lemma ctree_get_spec : forall t n v, ctwf n ->
      (In v (ctree_get n t) <-> exists q id, ct_has n q id v /\ qmatch q t).
  Proof.
    induction t as [|h t IH]; intros [vs avs ch qu] v Hw; inversion Hw; subst; cbn [ctree_get]; rewrite !in_app_iff.
    - split.
      + intros [Hi|Hi]; apply in_map_iff in Hi as ([id u] & Hu & Hi); cbn in Hu; subst.
        * exists ["*"], id. cbn. split; auto. constructor.
        * exists [], id. split; auto. constructor.
      + intros (q & id & Hh & Hm). inversion Hm; subst.
        * right. apply in_map_iff. exists (id, v). auto.
        * left. cbn in Hh. apply in_map_iff. exists (id, v). intuition.
    - split.
      + intros [Hi|[Hi|Hi]].
        * apply in_map_iff in Hi as ([id u] & Hu & Hi); cbn in Hu; subst.
          exists ["*"], id. cbn. split; auto. constructor.
        * destruct qu as [c|]; [|easy]. apply IH in Hi as (q & id & Hh & Hm); auto.
          exists ("?" :: q), id. cbn [ct_has]. split; auto. now constructor.
        * destruct (sget h ch) as [c|] eqn:Eg; [|easy].
          pose proof (dget_In seqb_spec _ _ _ Eg) as Hin.
          apply IH in Hi as (q & id & Hh & Hm); eauto.
          assert (Hk : In h (keys ch)) by (apply in_map_iff; now exists (h, c)).
          assert (h <> "*" /\ h <> "?") as [Hn1 Hn2] by (split; intros ->; auto).
          exists (h :: q), id. split; [|now constructor]. cbn [ct_has].
          apply String.eqb_neq in Hn1, Hn2. now rewrite Hn1, Hn2, Eg.
      + intros (q & id & Hh & Hm). inversion Hm; subst; cbn [ct_has] in Hh.
        * left. apply in_map_iff. exists (id, v). cbn in Hh. intuition.
        * right; left. cbn in Hh. destruct qu as [c|]; [|easy]. apply IH; eauto.
        * match goal with Hns : h <> "*" |- _ => apply String.eqb_neq in Hns; rewrite Hns in Hh end.
          destruct (h =? "?") eqn:E.
          -- right; left. destruct qu as [c|]; [|easy]. apply IH; eauto.
          -- right; right. destruct (sget h ch) as [c|] eqn:Eg; [|easy].
             apply (dget_In seqb_spec) in Eg. apply IH; eauto.
  Qed.

  Definition ct_inv (c : ctcoll V) : Prop :=
    ctwf (ctc_root c) /\ NoDup (keys (ctc_refs c)) /\
    (forall q id v, ct_has (ctc_root c) q id v <-> In (q, id) (ctc_refs_of veqb c v)) /\
    (forall q id v, In (q, id) (ctc_refs_of veqb c v) -> valid_query q /\ id < ctc_next c) /\
    (forall q id v q' v', In (q, id) (ctc_refs_of veqb c v) -> In (q', id) (ctc_refs_of veqb c v') -> v = v').

  Lemma ctcoll_add_inv : forall qs c v, Forall valid_query qs -> ct_inv c ->
      let c' := ctcoll_add veqb c qs v in
      ct_inv c' /\
      (forall u, u <> v -> ctc_refs_of veqb c' u = ctc_refs_of veqb c u) /\
      (forall q, (exists id, In (q, id) (ctc_refs_of veqb c' v)) <->
                 (exists id, In (q, id) (ctc_refs_of veqb c v)) \/ In q qs).
  Proof.
    induction qs as [|q qs IH]; intros c v Hq Hinv; cbn [ctcoll_add]; cbn zeta.
    - split; auto. split; auto. intros q. cbn. intuition.
    - inversion Hq as [|? ? Hvq Hq']; subst. destruct Hinv as (Hw & Hk & Hh & Hb & Hu).
      destruct (ctree_add_spec q (ctc_root c) (ctc_next c) v Hvq Hw) as [Hw1 Hh1].
      set (c1 := CtColl (ctree_add (ctc_root c) q (ctc_next c) v)
                   (dset veqb v (ctc_refs_of veqb c v ++ [(q, ctc_next c)]) (ctc_refs c)) (S (ctc_next c))).
      assert (P1 : ctc_refs_of veqb c1 v = ctc_refs_of veqb c v ++ [(q, ctc_next c)]).
      { unfold ctc_refs_of at 1, c1. cbn [ctc_refs]. now rewrite dget_dset_same. }
      assert (P2 : forall u, u <> v -> ctc_refs_of veqb c1 u = ctc_refs_of veqb c u).
      { intros u Hn. unfold ctc_refs_of, c1. cbn [ctc_refs]. now rewrite dget_dset_other. }
      assert (P3 : forall q' id u, In (q', id) (ctc_refs_of veqb c1 u) <->
                In (q', id) (ctc_refs_of veqb c u) \/ (q' = q /\ id = ctc_next c /\ u = v)).
      { intros q' id u. destruct (v_dec u v) as [->|Hn].
        - rewrite P1, in_app_iff. cbn. split; [intros [|[[= <- <-]|[]]]|intros [|(-> & -> & _)]]; auto.
        - rewrite P2 by auto. intuition. }
      assert (Hinv1 : ct_inv c1).
      { split; [|split; [|split; [|split]]].
        - exact Hw1.
        - unfold c1; cbn [ctc_refs]. now apply NoDup_dset.
        - intros q' id u. rewrite P3, <- Hh. apply Hh1.
        - intros q' id u H. unfold c1; cbn [ctc_next]. apply P3 in H as [H|(-> & -> & ->)].
          + apply Hb in H. intuition. + auto.
        - intros q1 id u q2 u' H1 H2. apply P3 in H1 as [H1|(-> & -> & ->)]; apply P3 in H2 as [H2|(-> & Hid & ->)]; auto.
          + eauto.
          + apply Hb in H1. lia.
          + apply Hb in H2. lia. }
      destruct (IH c1 v Hq' Hinv1) as (I1 & I2 & I3).
      split; [exact I1|]. split.
      + intros u Hn. rewrite I2 by auto. auto.
      + intros q'. rewrite I3. split.
        * intros [[id H]|H]; [|cbn; auto]. apply P3 in H as [H|(-> & _)]; [left; eauto|cbn; auto].
        * intros [[id H]|[<-|H]]; [left; exists id; apply P3; auto|left; exists (ctc_next c); apply P3; auto|auto].
  Qed.

  Lemma ctree_removes_spec : forall refs root, (forall q id, In (q, id) refs -> valid_query q) -> ctwf root ->
      let r := fold_left (fun r ref => ctree_remove r (fst ref) (snd ref)) refs root in
      ctwf r /\ forall q id u, ct_has r q id u <-> ct_has root q id u /\ ~ In (q, id) refs.
  Proof.
    induction refs as [|[q0 id0] refs IH]; intros root Hv Hw; cbn [fold_left fst snd]; cbn zeta.
    - split; auto. intros. cbn. intuition.
    - destruct (ctree_remove_spec q0 root id0) as [Hw1 Hh1]; auto.
      { eapply Hv; left; eauto. }
      destruct (IH (ctree_remove root q0 id0)) as [Hw2 Hh2]; auto.
      { intros. eapply Hv; right; eauto. }
      split; auto. intros q id u. rewrite Hh2, Hh1. cbn. split.
      + intros [[H1 H2] H3]. split; auto. intros [[= <- <-]|]; auto.
      + intros [H1 H2]. split; auto. split; auto. intros [-> ->]. auto.
  Qed.

  Lemma ctcoll_run_inv : forall ops, ops_ok ops ->
      let c := ctcoll_run veqb ops in
      ct_inv c /\
      forall v t, (exists q id, In (q, id) (ctc_refs_of veqb c v) /\ qmatch q t) <-> selected ops v t.
  Proof.
    intros ops. unfold ctcoll_run. induction ops as [|op ops IH] using rev_ind; intros Hok; cbn zeta.
    - split.
      + split; [apply ctwf_new|]. split; [constructor|]. cbn. split; [|split; easy].
        intros q id v. unfold ctc_refs_of. cbn. split; [apply ct_has_new|easy].
      + intros v t. split; [intros (q & id & [] & _)|]. intros H. now apply selected_nil in H.
    - rewrite fold_left_app. cbn [fold_left].
      destruct (IH (ops_ok_snoc _ _ Hok)) as [Hinv Hsel]. clear IH.
      set (c := fold_left (ctcoll_op veqb) ops (CtColl ct_new [] 0)) in *. clearbody c.
      destruct op as [s v|v]; cbn [ctcoll_op].
      + pose proof (ops_ok_last _ _ _ Hok) as Hps. pose proof (py_subscription_wf _ Hps) as Hwf.
        destruct (ctcoll_add_inv (node_to_query_types s) c v (to_qts_valid _ Hwf) Hinv) as (I1 & I2 & I3).
        split; [exact I1|]. intros u t. rewrite selected_add. destruct (v_dec u v) as [->|Hn].
        * split.
          -- intros (q & id & Hi & Hm). destruct (proj1 (I3 q) (ex_intro _ id Hi)) as [[id' Hi']|Hq].
             ++ right. apply Hsel. eauto.
             ++ left. split; auto. apply listed_match; auto. exists q. split; auto.
                apply mqt_qmatch; auto. pose proof (to_qts_valid _ Hwf) as Hval. rewrite Forall_forall in Hval; auto.
          -- intros [[_ Hm]|Hs].
             ++ apply listed_match in Hm as (q & Hq & Hm); auto.
                destruct (proj2 (I3 q) (or_intror Hq)) as [id Hi]. exists q, id. split; auto.
                apply mqt_qmatch; auto. pose proof (to_qts_valid _ Hwf) as Hval. rewrite Forall_forall in Hval; auto.
             ++ apply Hsel in Hs as (q & id & Hi & Hm).
                destruct (proj2 (I3 q) (or_introl (ex_intro _ id Hi))) as [id' Hi']. eauto.
        * rewrite I2 by auto. rewrite Hsel. intuition.
      + destruct Hinv as (Hw & Hk & Hh & Hb & Hu).
        destruct (ctree_removes_spec (ctc_refs_of veqb c v) (ctc_root c)) as [Hw1 Hh1]; auto.
        { intros q id Hi. eapply Hb; eauto. }
        set (c' := CtColl (fold_left (fun r ref => ctree_remove r (fst ref) (snd ref)) (ctc_refs_of veqb c v) (ctc_root c))
                     (ddel veqb v (ctc_refs c)) (ctc_next c)).
        assert (P1 : ctc_refs_of veqb c' v = []).
        { unfold ctc_refs_of, c'. cbn [ctc_refs]. now rewrite dget_ddel_same. }
        assert (P2 : forall u, u <> v -> ctc_refs_of veqb c' u = ctc_refs_of veqb c u).
        { intros u Hn. unfold ctc_refs_of at 1, c'. cbn [ctc_refs]. now rewrite dget_ddel_other. }
        assert (P3 : forall q id u, In (q, id) (ctc_refs_of veqb c' u) <-> In (q, id) (ctc_refs_of veqb c u) /\ u <> v).
        { intros q id u. destruct (v_dec u v) as [->|Hn]; [rewrite P1; cbn; intuition|rewrite P2 by auto; intuition]. }
        split; [split; [|split; [|split; [|split]]]|].
        * exact Hw1.
        * unfold c'; cbn [ctc_refs]. now apply NoDup_ddel.
        * intros q id u. unfold c' at 1; cbn [ctc_root]. rewrite Hh1, Hh, P3. split.
          -- intros [H1 H2]. split; auto. intros ->. auto.
          -- intros [H1 H2]. split; auto. intros H3. apply H2. eapply Hu; eauto.
        * intros q id u Hi. apply P3 in Hi as [Hi _]. eauto.
        * intros q id u q' u' H1 H2. apply P3 in H1 as [H1 _]. apply P3 in H2 as [H2 _]. eauto.
        * intros u t. rewrite selected_remove, <- Hsel. split.
          -- intros (q & id & Hi & Hm). apply P3 in Hi as [Hi Hn]. eauto.
          -- intros [Hn (q & id & Hi & Hm)]. exists q, id. rewrite P3. auto.
  Qed.

  Lemma ctree_exact : forall ops, ops_ok ops -> forall t v,
      In v (ctcoll_get (ctcoll_run veqb ops) t) <-> selected ops v t.
  Proof.
    intros ops Hok t v. destruct (ctcoll_run_inv ops Hok) as [(Hw & _ & Hh & _) Hsel].
    unfold ctcoll_get. rewrite ctree_get_spec by auto. rewrite <- Hsel.
    split; intros (q & id & H1 & H2); exists q, id; (split; [|auto]); now apply Hh.
  Qed.
End Coll.

Lemma ps_node : forall qs n, node_from_query_types qs = Some n -> py_subscription n.
Proof. intros qs n H. apply (ps_new qs). exact H. Qed.

Lemma final_C07_pytree_refuted :
  exists (ops : list (coll_op nat)) (t : etype) (v : nat),
    ops_ok ops /\ selected ops v t /\
    forall c, pytree_run Nat.eqb ops = Some c -> ~ In v (pytree_get c t).
Proof.
  destruct (node_from_query_types [["a"]]) as [n1|] eqn:E1; [|discriminate].
  destruct (node_from_query_types [["a"]; ["b"]]) as [n2|] eqn:E2; [|discriminate].
  exists [OpAdd n1 1; OpAdd n2 1], ["b"], 1. split; [|split].
  - intros s v [[= <- <-]|[[= <- <-]|[]]]; eapply ps_node; eauto.
  - exists [OpAdd n1 1], n2, []. split; [reflexivity|]. split; [easy|].
    injection E2 as <-. reflexivity.
  - intros c Hc. injection E1 as <-. injection E2 as <-. vm_compute in Hc. injection Hc as <-. vm_compute. easy.
Qed.
