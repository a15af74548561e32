(** Lemmas for C85: numbers of executions. *)
From Coq Require Import String Ascii Bool ZArith QArith Lia List.
From Verif Require Import Base Kv Model_Types Model_Time Model_Subscription Model_Codec Spec_Codec Keys Model_Sbs Model_Lmdb Model_LmdbSys Model_ConvertBytes Spec_ConvertBytes
  Model_CopyBytes Spec_CopyBytes Model_LmdbBytes Spec_LmdbBytes Model_LmdbFile Spec_Lmdb Spec_LmdbFile Proof_LmdbFile Proof_LmdbFile2.
Import ListNotations.
Open Scope list_scope.
Open Scope Z_scope.

Lemma inc_fits : forall T R c counts, 0 <= R -> Forall (fun pn : Z * Z => 0 <= snd pn /\ snd pn + (amount c + R) <= T) counts -> amount c + R <= T ->
    Forall (fun pn : Z * Z => 0 <= snd pn /\ snd pn + R <= T) (inc_counts c counts).
Proof.
  intros T R c. unfold inc_counts. induction c as [|[p l] c IH]; intros counts HR H HT; cbn [fold_left].
  - eapply Forall_impl; [|exact H]. intros [q n]. unfold amount. cbn [fold_right snd]. lia.
  - cbn [fst snd]. assert (A : amount ((p, l) :: c) = zlen l + amount c) by reflexivity. rewrite A in *. assert (0 <= zlen l) by (unfold zlen; lia).
    assert (0 <= amount c) by apply amount_nonneg. apply IH; [exact HR| |lia]. apply F_kput.
    + cbn [snd]. unfold partition_count, kget. destruct (dget (oeqb zord) p counts) as [n|] eqn:G; [|lia].
      assert (Q := F_dgetv _ _ _ (fun n => 0 <= n /\ n + (zlen l + amount c + R) <= T) _ _ _ H G). cbn beta in Q. lia.
    + eapply Forall_impl; [|exact H]. intros [q n]. cbn [snd]. lia.
Qed.

Lemma loop_bound : forall mr me mn dk stop entries l n, 0 <= mn ->
    cleanup_loop mr me mn dk stop entries n l = [] \/ zlen (cleanup_loop mr me mn dk stop entries n l) <= entries - n - mn.
Proof.
  intros mr me mn dk stop entries l. induction l as [|[k x] l IH]; intros n Hm; cbn [cleanup_loop]; [now left|].
  destruct (match mr with Some m => m <=? n | None => false end); [now left|]. destruct (entries - n <=? mn) eqn:E; [now left|]. apply Z.leb_gt in E.
  destruct (negb (key_ltb k stop)); [now left|].
  match goal with |- context [if ?c then [] else _] => destruct c; [now left|] end. right. unfold zlen in *. cbn [List.length].
  destruct (IH (n + 1) Hm) as [Q|Q]; [rewrite Q; cbn [List.length]; lia|lia].
Qed.

Definition counts_in (T : Z) (d : ldb) : Prop := Forall (fun pn : Z * Z => 0 <= snd pn <= T) (db_counts d).
Definition same_rest (d d' : ldb) : Prop := db_types d' = db_types d /\ db_latest d' = db_latest d /\ db_parts d' = db_parts d.
Definition mins_ok (parts : list (Z * partition)) : Prop := forall i p lm n, In (i, p) parts -> pt_limit p = Some lm -> lm_min lm = Some n -> 0 <= n.

Lemma clean_part_fits : forall O now d p lm mr T, (forall n, lm_min lm = Some n -> 0 <= n) -> counts_in T d ->
    same_rest d (fst (cleanup_partition O now d p lm mr)) /\ counts_in T (fst (cleanup_partition O now d p lm mr)).
Proof.
  intros O now d p lm mr T Hm H. unfold cleanup_partition. cbn [fst]. split; [repeat split|]. unfold counts_in. cbn [db_counts].
  assert (M : 0 <= match lm_min lm with Some n => n | None => 0 end) by (destruct (lm_min lm); [now apply Hm|lia]).
  match goal with |- context [cleanup_loop ?a ?b ?c ?d ?e ?f ?g ?h] => pose proof (loop_bound a b c d e f h g M) as B; destruct (cleanup_loop a b c d e f g h) as [|k ks] end; [exact H|].
  destruct B as [B|B]; [discriminate|]. apply F_kput; [|exact H]. cbn [snd]. assert (0 <= zlen (k :: ks)) by (unfold zlen; lia). unfold partition_count, kget in *.
  destruct (dget (oeqb zord) p (db_counts d)) as [n|] eqn:G.
  - assert (Q := F_dgetv _ _ _ (fun n => 0 <= n <= T) _ _ _ H G). cbn beta in Q. lia.
  - unfold zlen in *. cbn [List.length] in *. lia.
Qed.
Lemma clean_parts_fits : forall O now mr ps d acc T, mins_ok ps -> counts_in T d ->
    same_rest d (fst (cleanup_partitions O now mr d acc ps)) /\ counts_in T (fst (cleanup_partitions O now mr d acc ps)).
Proof.
  intros O now mr ps. induction ps as [|[i p] ps IH]; intros d acc T Hm H; cbn [cleanup_partitions]; [split; [repeat split|exact H]|].
  assert (Hm' : mins_ok ps) by (intros j q lm n Hi; apply (Hm j q); now right).
  destruct (pt_limit p) as [lm|] eqn:El; [|now apply IH].
  match goal with |- context [if ?c then (d, acc) else _] => destruct c; [split; [repeat split|exact H]|] end.
  match goal with |- context [cleanup_partition O now d i lm ?l] => destruct (clean_part_fits O now d i lm l T) as [(A1 & A2 & A3) B]; [intros n; apply (Hm i p); [now left|exact El]|exact H|];
    destruct (cleanup_partition O now d i lm l) as [d1 r] end. cbn [fst] in *.
  destruct (IH d1 (acc ++ r) T Hm' B) as [(C1 & C2 & C3) D]. split; [|exact D]. split; [congruence|]. split; congruence.
Qed.
Lemma clean_fits : forall O now ps d T, mins_ok ps -> counts_in T d -> same_rest d (fst (cleanup O ps now d)) /\ counts_in T (fst (cleanup O ps now d)).
Proof.
  intros O now ps d T Hm H. unfold cleanup. pose proof (clean_parts_fits O now (Some cleanup_max_results) ps d [] T Hm H) as A.
  destruct (cleanup_partitions O now (Some cleanup_max_results) d [] ps) as [d1 [|k ks]]; exact A.
Qed.

Lemma max_bounds : forall l a N, a <= N -> Forall (fun x => x <= N) l -> a <= fold_left Z.max l a <= N /\ Forall (fun x => x <= fold_left Z.max l a) l.
Proof.
  induction l as [|x l IH]; intros a N Ha H; cbn [fold_left]; [split; [lia|constructor]|]. inversion H as [|? ? H1 H2]; subst.
  destruct (IH (Z.max a x) N ltac:(lia) H2) as [B D]. split; [lia|]. constructor; [lia|exact D].
Qed.

Section Fits.
  Variables (F : Z -> Z -> Prop) (CS : list conf).

  Lemma latest_open_fits : forall N cond sub d, 0 <= N -> types_fit N (db_types d) -> Forall (fun kx : Z * event => sound F (snd kx)) (db_latest d) -> latest_ok F N (latest_open cond sub d).
  Proof.
    intros N cond sub d HN Ht Hl. unfold latest_open. set (refs := fold_left _ (db_types d) []).
    assert (R : Forall (fun tr : etype * Z => 1 <= snd tr <= N) refs).
    { unfold refs. assert (G : Forall (fun tr : etype * Z => 1 <= snd tr <= N) []) by constructor. revert G. generalize (@nil (etype * Z)). unfold types_fit in Ht.
      induction Ht as [|[k t] l Hk Ht IH]; intros m Hm; cbn [fold_left]; [exact Hm|]. apply IH. apply F_dset'; [intros q; exact Hk|exact Hm]. }
    destruct (max_bounds (vals refs) 0 N HN) as [B D].
    { unfold vals. rewrite Forall_map. eapply Forall_impl; [|exact R]. intros [t k]. cbn [snd]. lia. }
    split; [cbn [ld_next]; lia|]. cbn [ld_next ld_refs ld_events]. split.
    - unfold vals in D. rewrite Forall_map in D. rewrite Forall_forall in *. intros x Hx. specialize (D x Hx). specialize (R x Hx). unfold vals. lia.
    - assert (G : Forall (fun tx : etype * event => sound F (snd tx)) []) by constructor. clearbody refs. revert G. generalize (@nil (etype * event)).
      induction Hl as [|[k x] l Hk Hl IH]; intros m Hm; cbn [fold_left]; [exact Hm|]. apply IH.
      match goal with |- context [if ?c then _ else _] => destruct c; [|exact Hm] end. apply F_dset'; [intros q; exact Hk|exact Hm].
  Qed.

  Lemma init_fits : forall c d P db' res, In c CS -> 0 <= P -> Forall (fun kp : Z * part_data => 1 <= fst kp <= P) d -> init_partitions d (cf_parts c) = (db', res) ->
      Forall (fun kp : Z * part_data => 1 <= fst kp <= P + zlen (cf_parts c)) db' /\
      Forall (fun ip : Z * partition => 1 <= fst ip <= P + zlen (cf_parts c) /\ exists c, In c CS /\ In (snd ip) (cf_parts c)) res /\ zlen res <= zlen (cf_parts c).
  Proof.
    intros c d P db' res Hc HP Hd E. unfold init_partitions in E.
    assert (M : forall (l : list (Z * part_data)) a, 0 <= a <= P -> Forall (fun kp : Z * part_data => 1 <= fst kp <= P) l ->
      a <= fold_left (fun m kv => if m <? fst kv then fst kv else m) l a <= P /\ Forall (fun kp : Z * part_data => 1 <= fst kp <= fold_left (fun m kv => if m <? fst kv then fst kv else m) l a) l).
    { induction l as [|[k x] l IH]; intros a Ha H; cbn [fold_left fst]; [split; [lia|constructor]|]. inversion H as [|? ? H1 H2]; subst. cbn [fst] in H1.
      destruct (a <? k) eqn:Q; [apply Z.ltb_lt in Q|apply Z.ltb_ge in Q].
      - destruct (IH k ltac:(lia) H2) as [A B]. split; [lia|]. constructor; [cbn [fst]; lia|exact B].
      - destruct (IH a Ha H2) as [A B]. split; [lia|]. constructor; [cbn [fst]; lia|exact B]. }
    destruct (M d 0 ltac:(lia) Hd) as [M1 M2]. set (mx := fold_left _ d 0) in *. clearbody mx. clear M.
    assert (K : Forall (fun pk : part_data * Z => 1 <= snd pk < mx + 1) (fold_left (fun c kv => dset part_data_eqb (snd kv) (fst kv) c) d [])).
    { assert (G : Forall (fun pk : part_data * Z => 1 <= snd pk < mx + 1) []) by constructor. clear E Hd. revert G. generalize (@nil (part_data * Z)).
      induction M2 as [|[k x] l Hk M2 IH]; intros m Hm; cbn [fold_left]; [exact Hm|]. apply IH. apply F_dset'; [intros q; cbn [fst snd] in *; lia|exact Hm]. }
    assert (G : forall ps cache next db r cache' next' db' r',
      (forall p, In p ps -> In p (cf_parts c)) -> 1 <= next -> Forall (fun pk : part_data * Z => 1 <= snd pk < next) cache -> Forall (fun kp : Z * part_data => 1 <= fst kp < next) db ->
      Forall (fun ip : Z * partition => 1 <= fst ip < next /\ exists c, In c CS /\ In (snd ip) (cf_parts c)) r ->
      fold_left init_partition ps (cache, next, db, r) = (cache', next', db', r') ->
      next' <= next + zlen ps /\ Forall (fun kp : Z * part_data => 1 <= fst kp < next') db' /\
      Forall (fun ip : Z * partition => 1 <= fst ip < next' /\ exists c, In c CS /\ In (snd ip) (cf_parts c)) r' /\ zlen r' <= zlen r + zlen ps).
    { induction ps as [|p ps IH]; intros cache next db r cache' next' db1 r' Hps Hn Hca Hdb Hr Q; cbn [fold_left] in Q.
      - injection Q as _ <- <- <-. unfold zlen. cbn [List.length]. split; [lia|]. split; [exact Hdb|]. split; [exact Hr|lia].
      - assert (L : zlen (p :: ps) = 1 + zlen ps) by (unfold zlen; cbn [List.length]; lia). rewrite L.
        assert (Z1 : forall i (m : list (Z * partition)), zlen (dset Z.eqb i p m) <= zlen m + 1).
        { intros i m. unfold zlen. induction m as [|[j q] m IHm]; cbn [dset List.length]; [lia|]. destruct (Z.eqb i j); cbn [List.length]; lia. }
        unfold init_partition at 2 in Q. destruct (dget part_data_eqb (part_data_of p) cache) as [i|] eqn:G.
        + assert (Hi := F_dgetv _ _ _ (fun i => 1 <= i < next) _ _ _ Hca G). cbn beta in Hi.
          destruct (IH _ _ _ _ _ _ _ _ (fun q Hq => Hps q (or_intror Hq)) Hn Hca Hdb
            (F_dset _ _ _ Z.eqb_eq _ _ _ _ (conj Hi (ex_intro _ c (conj Hc (Hps p (or_introl eq_refl))))) Hr) Q) as (A1 & A2 & A3 & A4).
          split; [lia|]. split; [exact A2|]. split; [exact A3|]. specialize (Z1 i r). lia.
        + assert (J1 : Forall (fun pk : part_data * Z => 1 <= snd pk < next + 1) (dset part_data_eqb (part_data_of p) next cache)).
          { apply F_dset'; [intros k; cbn [snd]; lia|]. eapply Forall_impl; [|exact Hca]. intros a H. cbn beta in *. lia. }
          assert (J2 : Forall (fun kp : Z * part_data => 1 <= fst kp < next + 1) (kput zord next (part_data_of p) db)).
          { apply F_kput; [cbn [fst]; lia|]. eapply Forall_impl; [|exact Hdb]. intros a H. cbn beta in *. lia. }
          assert (J3 : Forall (fun ip : Z * partition => 1 <= fst ip < next + 1 /\ exists c, In c CS /\ In (snd ip) (cf_parts c)) (dset Z.eqb next p r)).
          { apply (F_dset _ _ _ Z.eqb_eq).
            - cbn [fst snd]. split; [lia|]. exists c. split; [exact Hc|apply Hps; now left].
            - eapply Forall_impl; [|exact Hr]. intros a [H H']. split; [lia|exact H']. }
          destruct (IH _ _ _ _ _ _ _ _ (fun q Hq => Hps q (or_intror Hq)) (ltac:(lia) : 1 <= next + 1) J1 J2 J3 Q) as (A1 & A2 & A3 & A4).
          split; [lia|]. split; [exact A2|]. split; [exact A3|]. specialize (Z1 next r). lia. }
    destruct (fold_left init_partition (cf_parts c) _) as [[[ca nx] db1] r1] eqn:Q. injection E as <- <-.
    assert (M3 : Forall (fun kp : Z * part_data => 1 <= fst kp < mx + 1) d) by (eapply Forall_impl; [|exact M2]; intros a H; cbn beta in *; lia).
    destruct (G _ _ _ _ _ _ _ _ _ (fun p Hp => Hp) (ltac:(lia) : 1 <= mx + 1) K M3 (Forall_nil _) Q) as (A1 & A2 & A3 & A4).
    split; [eapply Forall_impl; [|exact A2]; intros; cbn beta in *; lia|]. split; [eapply Forall_impl; [|exact A3]; intros a [X Y]; split; [lia|exact Y]|]. unfold zlen in *. cbn [List.length] in A4. lia.
  Qed.
End Fits.
