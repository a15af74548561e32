(** Proofs about the memory of the C event type collection: looking up and
    freeing. *)
From Coq Require Import String Bool Arith ZArith Lia Permutation List.
From Verif Require Import Base Model_Types Model_Subscription Model_Collection Model_CHeap Proof_Subscription Proof_CHeap Proof_CHeap2 Proof_CHeap3 Proof_CHeap4.
Import ListNotations.
Open Scope string_scope.
Open Scope list_scope.

Section CHeapGet.
  Variable V : Type.
  Variable veqb : V -> V -> bool.
  Hypothesis veqb_spec : forall a b, veqb a b = true <-> a = b.

  Notation heap := (addr -> option (cell V)).
  Notation inv := (inv V veqb).
  Notation tinv := (tinv V).
  Notation rinv := (rinv V).
  Notation dinv := (dinv V).
  Notation cinv := (cinv V veqb).
  Notation ghost := (ghost V).
  Notation hdp := (hdp V).
  Notation dll := (dll V).

  (** ** Looking up *)

  (** The list at a path (with its kind) contributes to the result for an event
      type. *)
  Fixpoint sel (q : etype) (w : bool) (t : etype) : Prop :=
    match q with
    | [] => w = true \/ t = []
    | k :: q' => match t with [] => False | k' :: t' => (k = "?" \/ k = k') /\ sel q' w t' end
    end.

  Lemma list_values_spec : forall l fuel prev s, dll (c_heap s) prev l -> length l <= fuel ->
    list_values fuel (hdp l) s = Some (map snd l, s).
  Proof.
    induction l as [|[a v] l IH]; intros fuel prev s D L; cbn [Proof_CHeap.hdp].
    - destruct fuel; reflexivity.
    - destruct fuel as [|fuel]; [cbn in L; lia|]. cbn [list_values]. destruct D as [D1 D2]. destruct s as [h n t rc]. cbn [c_heap] in *.
      erewrite bind_some by (apply load_obj_at; exact D1). cbn beta iota.
      erewrite bind_some by (eapply (IH fuel); [exact D2|cbn in L; lia]). reflexivity.
  Qed.

  Lemma get_values_spec : forall t s root g p a, tinv (c_heap s) (c_next s) root g -> g_node V g p = Some a ->
    exists l, get_values a t s = Some (l, s) /\
      forall v, In v l <-> exists q w x, In (x, v) (g_lst V g (p ++ q) w) /\ sel q w t.
  Proof.
    assert (LV : forall s root g p w, tinv (c_heap s) (c_next s) root g -> list_values (c_next s) (hdp (g_lst V g p w)) s = Some (map snd (g_lst V g p w), s)).
    { intros s root g p w T. eapply list_values_spec; [apply (t_dll _ _ _ _ _ T)|apply (t_length _ _ _ _ _ T)]. }
    assert (IM : forall (l : list (addr * V)) v, In v (map snd l) <-> exists x, In (x, v) l).
    { intros l v. rewrite in_map_iff. split; [intros ([x u] & E & Hi); cbn in E; subst; eauto|intros (x & Hi); exists (x, v); auto]. }
    induction t as [|k t IH]; intros s root g p a T Ea; assert (Ca := t_cell _ _ _ _ _ T p a Ea).
    - exists (map snd (g_lst V g p true) ++ map snd (g_lst V g p false)). split.
      + cbn [get_values]. destruct s as [h n tr rc]. cbn [c_heap c_next] in *.
        erewrite bind_some by (apply load_tree_at; exact Ca). cbn beta iota.
        erewrite bind_some by (apply (LV (Cst h n tr rc)  _ _ _ _ T)).
        erewrite bind_some by (apply (LV (Cst h n tr rc)  _ _ _ _ T)). reflexivity.
      + intros v. rewrite in_app_iff, !IM. split.
        * intros [(x & Hi)|(x & Hi)]; [exists [], true, x|exists [], false, x]; rewrite app_nil_r; cbn; auto.
        * intros ([|k q] & w & x & Hi & Hs); cbn in Hs; [|tauto]. rewrite app_nil_r in Hi. destruct w; eauto.
    - (* children *)
      assert (CH : forall k', k' <> "*" -> exists l, match g_node V g (p ++ [k']) with Some c => get_values c t s | None => Some ([], s) end = Some (l, s) /\
        forall v, In v l <-> exists q w x, In (x, v) (g_lst V g (p ++ k' :: q) w) /\ sel q w t).
      { intros k' Nk. destruct (g_node V g (p ++ [k'])) as [c|] eqn:Ec.
        - destruct (IH s root g (p ++ [k']) c T Ec) as (l & E & Q). exists l. split; auto. intros v. rewrite Q.
          split; intros (q & w & x & Hi & Hs); exists q, w, x; [rewrite <- app_assoc in Hi|rewrite <- app_assoc]; auto.
        - exists []. split; auto. intros v. split; [intros []|]. intros (q & w & x & Hi & _). exfalso.
          assert (NN : forall q, g_node V g (p ++ k' :: q) = None).
          { intros q0. induction q0 as [|k0 q0 IHq] using rev_ind; auto.
            replace (p ++ k' :: q0 ++ [k0]) with ((p ++ k' :: q0) ++ [k0]) by (rewrite <- app_assoc; reflexivity).
            now apply (t_none _ _ _ _ _ T). }
          destruct (t_none _ _ _ _ _ T _ (NN q)) as (_ & N & _). rewrite N in Hi. destruct Hi. }
      assert (ST : forall q w x v, In (x, v) (g_lst V g (p ++ "*" :: q) w) -> False).
      { intros q w x v Hi. assert (NN : forall q, g_node V g (p ++ "*" :: q) = None).
        { intros q0. induction q0 as [|k0 q0 IHq] using rev_ind; [apply (t_star _ _ _ _ _ T)|].
          replace (p ++ "*" :: q0 ++ [k0]) with ((p ++ "*" :: q0) ++ [k0]) by (rewrite <- app_assoc; reflexivity).
          now apply (t_none _ _ _ _ _ T). }
        destruct (t_none _ _ _ _ _ T _ (NN q)) as (_ & N & _). rewrite N in Hi. destruct Hi. }
      destruct (CH "?" ltac:(discriminate)) as (lq & Eq & Qq).
      assert (HT : exists l', match g_ht V g p with
                  | None => Some ([], s)
                  | Some b => bind (ht_get b k) (fun pc => match pc with Some c => get_values c t | None => ret [] end) s
                  end = Some (l', s) /\
                 forall v, In v l' <-> k <> "?" /\ exists q w x, In (x, v) (g_lst V g (p ++ k :: q) w) /\ sel q w t).
      { destruct (g_ht V g p) as [b|] eqn:Eb.
        - destruct (t_ht _ _ _ _ _ T p b Eb) as (es & Hb & ND & Q).
          rewrite (bind_some _ _ _ _ _ _ (sget k es) s).
          2: { destruct s as [h n tr rc]. unfold ht_get. erewrite bind_some by (apply load_ht_at; exact Hb). reflexivity. }
          destruct (sget k es) as [c|] eqn:Ec.
          + apply Q in Ec. destruct Ec as [Nq Ec]. destruct (IH s root g (p ++ [k]) c T Ec) as (l & E & Ql). exists l. split; auto.
            intros v. rewrite Ql. split.
            * intros (q & w & x & Hi & Hs). split; auto. exists q, w, x. rewrite <- app_assoc in Hi. auto.
            * intros (_ & q & w & x & Hi & Hs). exists q, w, x. rewrite <- app_assoc. auto.
          + exists []. split; [reflexivity|]. intros v. split; [intros []|]. intros (Nq & q & w & x & Hi & _).
            destruct (string_dec k "*") as [->|Ns]; [exfalso; eauto|].
            destruct (CH k Ns) as (l & E & Ql). destruct (g_node V g (p ++ [k])) as [c|] eqn:En.
            * assert (E' : sget k es = Some c) by (apply Q; auto). congruence.
            * exfalso. assert (NN : forall q, g_node V g (p ++ k :: q) = None).
              { intros q0. induction q0 as [|k0 q0 IHq] using rev_ind; auto.
                replace (p ++ k :: q0 ++ [k0]) with ((p ++ k :: q0) ++ [k0]) by (rewrite <- app_assoc; reflexivity).
                now apply (t_none _ _ _ _ _ T). }
              destruct (t_none _ _ _ _ _ T _ (NN q)) as (_ & N & _). rewrite N in Hi. destruct Hi.
        - exists []. split; auto. intros v. split; [intros []|]. intros (Nq & q & w & x & Hi & _). exfalso.
          assert (NN : forall q, g_node V g (p ++ k :: q) = None).
          { intros q0. induction q0 as [|k0 q0 IHq] using rev_ind; [now apply (t_noht _ _ _ _ _ T)|].
            replace (p ++ k :: q0 ++ [k0]) with ((p ++ k :: q0) ++ [k0]) by (rewrite <- app_assoc; reflexivity).
            now apply (t_none _ _ _ _ _ T). }
          destruct (t_none _ _ _ _ _ T _ (NN q)) as (_ & N & _). rewrite N in Hi. destruct Hi. }
      destruct HT as (lc & Ec & Qc).
      exists (map snd (g_lst V g p true) ++ lq ++ lc). split.
      + cbn [get_values]. destruct s as [h n tr rc]. cbn [c_heap c_next] in *.
        erewrite bind_some by (apply load_tree_at; exact Ca). cbn beta iota.
        erewrite bind_some by (apply (LV (Cst h n tr rc)  _ _ _ _ T)).
        erewrite bind_some by (destruct (g_node V g (p ++ ["?"])); exact Eq).
        erewrite bind_some by (destruct (g_ht V g p); exact Ec). reflexivity.
      + intros v. rewrite !in_app_iff, IM, Qq, Qc. split.
        * intros [(x & Hi)|[(q & w & x & Hi & Hs)|(Nq & q & w & x & Hi & Hs)]].
          -- exists [], true, x. rewrite app_nil_r. cbn. auto.
          -- exists ("?" :: q), w, x. cbn. auto.
          -- exists (k :: q), w, x. cbn. auto.
        * intros ([|k' q] & w & x & Hi & Hs); cbn in Hs.
          -- rewrite app_nil_r in Hi. destruct Hs as [->|Hs]; [|discriminate]. eauto.
          -- destruct Hs as [Hk Hs]. destruct (string_dec k' "?") as [->|Nq]; [right; left; eauto 6|].
             right; right. destruct Hk as [Hk|Hk]; [congruence|]. subst k'. split; eauto 6.
  Qed.

  (** ** Freeing *)

  Record freed (s s' : cst V) (P : addr -> Prop) : Prop := {
    f_gone : forall x, P x -> c_heap s' x = None;
    f_keep : forall x, ~ P x -> c_heap s' x = c_heap s x;
    f_none : forall x, c_heap s x = None -> c_heap s' x = None;
    f_next : c_next s' = c_next s;
    f_c : cinv s -> cinv s' }.

  Lemma freed_refl : forall s, freed s s (fun _ => False).
  Proof. intros s. constructor; auto. tauto. Qed.
  Lemma freed_trans : forall s s1 s2 P Q PQ, freed s s1 P -> freed s1 s2 Q -> (forall x, PQ x <-> P x \/ Q x) -> freed s s2 PQ.
  Proof.
    intros s s1 s2 P Q PQ [A1 A2 A3 A4 A5] [B1 B2 B3 B4 B5] E. constructor; auto.
    - intros x Hx. apply E in Hx. destruct Hx; auto.
    - intros x Hx. rewrite B2, A2; auto; intros H; apply Hx, E; auto.
    - congruence.
  Qed.

  (** A cell that is not a list element. *)
  Lemma free_one : forall s a c, c_heap s a = Some c -> (forall v, weight V veqb (Some c) v = 0%Z) ->
    exists s', free a s = Some (tt, s') /\ freed s s' (fun x => x = a).
  Proof.
    intros [h n t rc] a c E W. cbn [c_heap] in E. eexists. split; [eapply free_at; exact E|]. constructor; cbn [c_heap c_next c_refs].
    - intros x ->. apply upd_same.
    - intros x N. now apply upd_other.
    - intros x N. unfold upd. now destruct (Nat.eqb x a).
    - reflexivity.
    - intros [C1 C2]. cbn [c_heap c_next c_refs] in *. split; cbn [c_heap c_next c_refs].
      + intros x. unfold upd. destruct (Nat.eqb x a); [congruence|auto].
      + intros v. rewrite cnt_upd by (apply C1; congruence). rewrite E, W, C2. cbn [weight]. lia.
  Qed.

  Lemma free_list_spec : forall l fuel prev s, dll (c_heap s) prev l -> NoDup (map fst l) -> length l <= fuel ->
    exists s', free_obj_list veqb fuel (hdp l) s = Some (tt, s') /\ freed s s' (fun x => In x (map fst l)).
  Proof.
    induction l as [|[a v] l IH]; intros fuel prev s D ND L; cbn [Proof_CHeap.hdp].
    - exists s. split; [destruct fuel; reflexivity|]. apply freed_refl.
    - destruct fuel as [|fuel]; [cbn in L; lia|]. cbn [free_obj_list]. destruct D as [D1 D2]. cbn in ND. inversion ND; subst.
      destruct s as [h n t rc]. cbn [c_heap] in *.
      erewrite bind_some by (apply load_obj_at; exact D1). cbn beta iota.
      unfold decref. erewrite bind_some by apply count_at. erewrite bind_some by (eapply free_at; exact D1).
      set (s1 := Cst _ n t _).
      destruct (IH fuel (Some a) s1) as (s' & E & F); auto.
      + unfold s1. cbn [c_heap]. eapply dll_frame; [exact D2|]. intros x u c Hi Ec. rewrite upd_other; auto.
        intros ->. apply H1. apply in_map_iff. exists (a, u). auto.
      + cbn in L. lia.
      + exists s'. split; auto. eapply freed_trans; [|exact F|].
        * instantiate (1 := fun x => x = a). unfold s1. constructor; cbn [c_heap c_next c_refs].
          -- intros x ->. apply upd_same.
          -- intros x N. now apply upd_other.
          -- intros x N. unfold upd. now destruct (Nat.eqb x a).
          -- reflexivity.
          -- intros [C1 C2]. cbn [c_heap c_next c_refs] in *. split; cbn [c_heap c_next c_refs].
             ++ intros x. unfold upd. destruct (Nat.eqb x a); [congruence|auto].
             ++ intros u. rewrite cnt_upd by (apply C1; congruence). rewrite D1. cbn [weight]. rewrite C2.
                assert (EV : veqb v u = veqb u v).
                { destruct (v_dec _ veqb veqb_spec u v) as [->|Nu]; [reflexivity|]. rewrite !(v_eqb_ne _ veqb veqb_spec) by auto. reflexivity. }
                rewrite EV. destruct (veqb u v); lia.
        * intros x. cbn. intuition.
  Qed.

  (** What belongs to the nodes at and under a path. *)
  Definition own (g : ghost) (p : etype) (x : addr) : Prop :=
    exists q, g_node V g (p ++ q) = Some x \/ g_ht V g (p ++ q) = Some x \/ exists w v, In (x, v) (g_lst V g (p ++ q) w).
  Definition at_ (g : ghost) (p : etype) (x : addr) : Prop :=
    g_node V g p = Some x \/ g_ht V g p = Some x \/ exists w v, In (x, v) (g_lst V g p w).

  Lemma own_at : forall g p x, own g p x <-> exists q, at_ g (p ++ q) x.
  Proof. reflexivity. Qed.

  (** Every cell of the tree belongs to one path. *)
  Lemma at_uniq : forall h n root g p p' x, tinv h n root g -> at_ g p x -> at_ g p' x -> p = p'.
  Proof.
    intros h n root g p p' x T H H'.
    assert (KN : forall p, g_node V g p = Some x -> exists a b c d, h x = Some (CTree a b c d)) by (intros; eapply node_kind; eauto).
    assert (KH : forall p, g_ht V g p = Some x -> exists a, h x = Some (CHt a)) by (intros; eapply ht_kind; eauto).
    assert (KL : forall p w v, In (x, v) (g_lst V g p w) -> exists a b, h x = Some (CObj a b v)) by (intros; eapply lst_kind; eauto).
    destruct H as [H|[H|(w & v & H)]]; destruct H' as [H'|[H'|(w' & v' & H')]];
      try (edestruct KN as (? & ? & ? & ? & ?); [eassumption|]);
      try (edestruct KH as (? & ?); [eassumption|]);
      try (edestruct KL as (? & ? & ?); [eassumption|]); try congruence.
    - eapply (t_inj _ _ _ _ _ T); eauto.
    - eapply (t_htinj _ _ _ _ _ T); eauto.
    - eapply (t_uniq _ _ _ _ _ T); eauto.
  Qed.

  Lemma own_apart : forall h n root g p k k' x, tinv h n root g -> own g (p ++ [k]) x -> own g (p ++ [k']) x -> k = k'.
  Proof.
    intros h n root g p k k' x T H H'. rewrite own_at in H, H'. destruct H as (q & H). destruct H' as (q' & H').
    assert (E := at_uniq _ _ _ _ _ _ _ T H H'). rewrite <- !app_assoc in E. apply app_inv_head in E. cbn in E. congruence.
  Qed.

  Lemma own_not_at : forall h n root g p k x, tinv h n root g -> own g (p ++ [k]) x -> at_ g p x -> False.
  Proof.
    intros h n root g p k x T H H'. rewrite own_at in H. destruct H as (q & H).
    assert (E := at_uniq _ _ _ _ _ _ _ T H H'). rewrite <- app_assoc in E. rewrite <- (app_nil_r p) in E at 2. apply app_inv_head in E. discriminate.
  Qed.

  Lemma own_cases : forall g p x, own g p x <-> at_ g p x \/ exists k, own g (p ++ [k]) x.
  Proof.
    intros g p x. rewrite own_at. split.
    - intros ([|k q] & H); [rewrite app_nil_r in H; auto|]. right. exists k. rewrite own_at. exists q. rewrite <- app_assoc. exact H.
    - intros [H|(k & H)]; [exists []; now rewrite app_nil_r|]. rewrite own_at in H. destruct H as (q & H). exists (k :: q). rewrite <- app_assoc in H. exact H.
  Qed.

  Lemma own_none : forall h n root g p x, tinv h n root g -> g_node V g p = None -> own g p x -> False.
  Proof.
    intros h n root g p x T N H. rewrite own_at in H. destruct H as (q & H).
    assert (NN : g_node V g (p ++ q) = None).
    { clear H. induction q as [|k q IHq] using rev_ind; [now rewrite app_nil_r|]. rewrite app_assoc. now apply (t_none _ _ _ _ _ T). }
    destruct (t_none _ _ _ _ _ T _ NN) as (N1 & N2 & _). destruct H as [H|[H|(w & v & H)]]; [congruence|congruence|]. rewrite N2 in H. destruct H.
  Qed.

  (** _ctree.c:46-64 *)
  Lemma free_tree_spec : forall h0 n root g, tinv h0 n root g -> forall fuel p a s,
    g_node V g p = Some a -> n <= fuel + length p -> c_next s = n ->
    (forall x, own g p x -> c_heap s x = h0 x) ->
    exists s', free_tree_node veqb fuel a s = Some (tt, s') /\ freed s s' (own g p).
  Proof.
    intros h0 n root g T. induction fuel as [|fuel IH]; intros p a s Ea L Ns A.
    { exfalso. assert (D := t_depth _ _ _ _ _ T p a Ea). lia. }
    assert (Ca := t_cell _ _ _ _ _ T p a Ea).
    assert (AT : forall x, at_ g p x -> c_heap s x = h0 x) by (intros; apply A, own_cases; auto).
    assert (Aa : c_heap s a = h0 a) by (apply AT; left; exact Ea).
    cbn [free_tree_node].
    rewrite (bind_some _ _ _ _ _ s (hdp (g_lst V g p false), hdp (g_lst V g p true), g_ht V g p, g_node V g (p ++ ["?"])) s).
    2: { destruct s as [h m t rc]. apply load_tree_at. cbn [c_heap] in Aa. congruence. }
    cbn beta iota.
    (* lists *)
    destruct (free_list_spec (g_lst V g p false) (c_next s) None s) as (s1 & E1 & F1).
    { eapply dll_frame; [apply (t_dll _ _ _ _ _ T)|]. intros x u c Hi Ec. rewrite AT; [exact Ec|]. right; right. eauto. }
    { apply (t_nodup _ _ _ _ _ T). } { rewrite Ns. apply (t_length _ _ _ _ _ T). }
    erewrite bind_some by exact E1.
    assert (NL : forall x, In x (map fst (g_lst V g p true)) -> ~ In x (map fst (g_lst V g p false))).
    { intros x H H'. apply in_map_iff in H, H'. destruct H as ([y u] & E & H). destruct H' as ([y' u'] & E' & H'). cbn in E, E'. subst.
      destruct (t_uniq _ _ _ _ _ T _ _ _ _ _ _ _ H H') as [_ ?]. discriminate. }
    destruct (free_list_spec (g_lst V g p true) (c_next s) None s1) as (s2 & E2 & F2).
    { eapply dll_frame; [apply (t_dll _ _ _ _ _ T)|]. intros x u c Hi Ec.
      rewrite (f_keep _ _ _ F1); [rewrite AT; [exact Ec|]; right; right; eauto|]. apply NL. apply in_map_iff. exists (x, u). auto. }
    { apply (t_nodup _ _ _ _ _ T). } { rewrite Ns. apply (t_length _ _ _ _ _ T). }
    erewrite bind_some by exact E2.
    assert (F12 : freed s s2 (fun x => exists w v, In (x, v) (g_lst V g p w))).
    { eapply freed_trans; [exact F1|exact F2|]. intros x. rewrite !in_map_iff. split.
      - intros ([] & v & H); [right|left]; exists (x, v); auto.
      - intros [([y v] & E & H)|([y v] & E & H)]; cbn in E; subst; eauto. }
    (* children in the hash table *)
    assert (HT : exists s3, (match g_ht V g p with
                  | Some b => bind (load_ht b) (fun es => bind (each (fun e => free_tree_node veqb fuel (snd e)) es) (fun _ => free b))
                  | None => ret tt end) s2 = Some (tt, s3) /\
                 freed s2 s3 (fun x => g_ht V g p = Some x \/ exists k, k <> "?" /\ own g (p ++ [k]) x)).
    { destruct (g_ht V g p) as [b|] eqn:Eb.
      - destruct (t_ht _ _ _ _ _ T p b Eb) as (es & Hb & ND & Q).
        assert (Ab : c_heap s2 b = h0 b).
        { rewrite (f_keep _ _ _ F12); [apply AT; right; left; exact Eb|]. intros (w & v & H).
          destruct (lst_kind _ _ _ _ _ _ _ _ _ T H) as (? & ? & ?). congruence. }
        rewrite (bind_some _ _ _ _ _ s2 es s2).
        2: { destruct s2 as [h m t rc]. apply load_ht_at. cbn [c_heap] in Ab. congruence. }
        assert (EACH : forall es' s2', (forall k c, In (k, c) es' -> k <> "?" /\ g_node V g (p ++ [k]) = Some c) -> NoDup (keys es') -> c_next s2' = n ->
          (forall x k, In k (keys es') -> own g (p ++ [k]) x -> c_heap s2' x = h0 x) ->
          exists s3, each (fun e => free_tree_node veqb fuel (snd e)) es' s2' = Some (tt, s3) /\
            freed s2' s3 (fun x => exists k, In k (keys es') /\ own g (p ++ [k]) x)).
        { induction es' as [|[k c] es' IHe]; intros s2' QE NDE NE AE.
          - exists s2'. split; [reflexivity|]. eapply freed_trans; [apply freed_refl|apply freed_refl|]. intros x. split; [intros (k & [] & _)|intuition].
          - cbn [each snd]. destruct (QE k c) as [Nq Ec]; [now left|]. cbn in NDE. inversion NDE; subst.
            destruct (IH (p ++ [k]) c s2') as (s3 & E3 & F3); auto.
            { rewrite app_length. cbn. lia. }
            { intros x Hx. apply (AE x k); auto. cbn. auto. }
            erewrite bind_some by exact E3. fold (@each V (string * addr)).
            destruct (IHe s3) as (s4 & E4 & F4); auto.
            { intros. apply QE. now right. }
            { rewrite (f_next _ _ _ F3). auto. }
            { intros x k' Hk Hx. rewrite (f_keep _ _ _ F3); [apply (AE x k'); auto; cbn; auto|]. intros Hx'.
              assert (k = k') by (eapply own_apart; eauto). subst. auto. }
            exists s4. split; auto. eapply freed_trans; [exact F3|exact F4|]. intros x. cbn [keys map fst]. split.
            + intros (k' & [<-|Hk] & Hx); eauto.
            + intros [Hx|(k' & Hk & Hx)]; [exists k|exists k']; cbn; auto. }
        assert (QK : forall k c, In (k, c) es -> k <> "?" /\ g_node V g (p ++ [k]) = Some c).
        { intros k c Hi. apply Q. now apply (In_dget seqb_spec). }
        destruct (EACH es s2) as (s3 & E3 & F3); auto.
        { rewrite (f_next _ _ _ F12). auto. }
        { intros x k Hk Hx. rewrite (f_keep _ _ _ F12); [apply A, own_cases; eauto|]. intros H. eapply own_not_at; eauto. right; right. exact H. }
        erewrite bind_some by exact E3.
        assert (Nb : forall k, ~ own g (p ++ [k]) b). { intros k H. eapply own_not_at; eauto. right; left. exact Eb. }
        destruct (free_one s3 b (CHt es)) as (s4 & E4 & F4).
        { rewrite (f_keep _ _ _ F3); [congruence|]. intros (k & _ & H). eapply Nb; eauto. } { reflexivity. }
        exists s4. split; auto. eapply freed_trans; [exact F3|exact F4|]. intros x. split.
        + intros [[= ->]|(k & Nq & H)]; auto. left. exists k. split; auto.
          destruct (g_node V g (p ++ [k])) as [c|] eqn:Ec; [|exfalso; eapply own_none; eauto].
          assert (Hs : sget k es = Some c) by (apply Q; auto). apply (dget_In seqb_spec) in Hs. apply in_map_iff. exists (k, c). auto.
        + intros [(k & Hk & H)| ->]; auto. right. exists k. split; auto. apply in_map_iff in Hk. destruct Hk as ([k' c] & E & Hi). cbn in E. subst.
          now apply QK in Hi.
      - exists s2. split; [reflexivity|]. eapply freed_trans; [apply freed_refl|apply freed_refl|]. intros x. split; [|intuition].
        intros [?|(k & Nq & H)]; [discriminate|]. exfalso. eapply own_none; [exact T| |exact H]. now apply (t_noht _ _ _ _ _ T). }
    destruct HT as (s3 & E3 & F3). erewrite bind_some by exact E3.
    assert (F13 : freed s s3 (fun x => (exists w v, In (x, v) (g_lst V g p w)) \/ g_ht V g p = Some x \/ exists k, k <> "?" /\ own g (p ++ [k]) x)).
    { eapply freed_trans; [exact F12|exact F3|]. intros x. tauto. }
    (* the "?" child *)
    assert (QU : exists s4, (match g_node V g (p ++ ["?"]) with Some c => free_tree_node veqb fuel c | None => ret tt end) s3 = Some (tt, s4) /\
                 freed s3 s4 (own g (p ++ ["?"]))).
    { destruct (g_node V g (p ++ ["?"])) as [c|] eqn:Ec.
      - apply IH; auto.
        + rewrite app_length. cbn. lia.
        + rewrite (f_next _ _ _ F13). auto.
        + intros x Hx. rewrite (f_keep _ _ _ F13); [apply A, own_cases; eauto|].
          intros [H|[H|(k & Nq & H)]].
          * eapply own_not_at; eauto. right; right. exact H.
          * eapply own_not_at; eauto. right; left. exact H.
          * apply Nq. eapply own_apart; eauto.
      - exists s3. split; [reflexivity|]. eapply freed_trans; [apply freed_refl|apply freed_refl|]. intros x. split; [|intuition].
        intros H. exfalso. eapply own_none; eauto. }
    destruct QU as (s4 & E4 & F4). erewrite bind_some by exact E4.
    assert (F14 : freed s s4 (fun x => (exists w v, In (x, v) (g_lst V g p w)) \/ g_ht V g p = Some x \/ exists k, own g (p ++ [k]) x)).
    { eapply freed_trans; [exact F13|exact F4|]. intros x. split.
      - intros [H|[H|(k & H)]]; auto. destruct (string_dec k "?") as [->|N]; auto. left. right. right. eauto.
      - intros [[H|[H|(k & _ & H)]]|H]; eauto. }
    destruct (free_one s4 a (CTree (hdp (g_lst V g p false)) (hdp (g_lst V g p true)) (g_ht V g p) (g_node V g (p ++ ["?"])))) as (s5 & E5 & F5).
    { rewrite (f_keep _ _ _ F14); [congruence|]. intros [(w & v & H)|[H|(k & H)]].
      - destruct (lst_kind _ _ _ _ _ _ _ _ _ T H) as (? & ? & ?). congruence.
      - destruct (ht_kind _ _ _ _ _ _ _ T H) as (? & ?). congruence.
      - eapply own_not_at; eauto. left. exact Ea. }
    { reflexivity. }
    exists s5. split; auto. eapply freed_trans; [exact F14|exact F5|]. intros x. rewrite own_cases. unfold at_. rewrite Ea. split.
    - intros [[[= ->]|[H|H]]|H]; auto.
    - intros [[H|[H|H]]| ->]; auto.
  Qed.

  (** Capsules. *)
  Lemma free_refs_spec : forall l s, NoDup l -> (forall r, In r l -> exists a w x, c_heap s r = Some (CRef a w x)) ->
    exists s', each free l s = Some (tt, s') /\ freed s s' (fun x => In x l).
  Proof.
    induction l as [|r l IH]; intros s ND H.
    - exists s. split; [reflexivity|]. apply freed_refl.
    - inversion ND; subst. cbn [each]. destruct (H r (or_introl eq_refl)) as (a & w & x & E).
      destruct (free_one s r _ E) as (s1 & E1 & F1); [reflexivity|]. erewrite bind_some by exact E1. fold (@each V addr).
      destruct (IH s1) as (s2 & E2 & F2); auto.
      + intros r' Hr'. destruct (H r' (or_intror Hr')) as (a' & w' & x' & E'). do 3 eexists. rewrite (f_keep _ _ _ F1); [exact E'|]. intros ->. auto.
      + exists s2. split; auto. eapply freed_trans; [exact F1|exact F2|]. intros y. cbn. intuition.
  Qed.
End CHeapGet.
