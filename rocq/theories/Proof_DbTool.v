From Coq Require Import String Ascii Bool ZArith Lia List Permutation.
From Verif Require Import Base Kv Model_Types Model_Subscription Model_Codec Model_Lmdb Spec_Subscription Proof_Subscription2
  Spec_LmdbContent Spec_Copy Model_DbTool Spec_DbTool.
Import ListNotations.
Open Scope string_scope.
Open Scope list_scope.
Open Scope Z_scope.

Lemma differs_spec : forall x y, differs x y = false <-> wanted x y.
Proof.
  intros [v|] y; unfold differs, wanted.
  - rewrite negb_false_iff, Z.eqb_eq. split; [intros -> w [= <-]|intros H]; auto.
  - split; auto. intros _ v [=].
Qed.

Lemma picked_flat : forall A B (P : A -> Prop) (b : A -> bool) (f : A -> B) l,
  (forall x, b x = true <-> P x) ->
  exists r, picked P l r /\ flat_map (fun x => if b x then [f x] else []) l = map f r.
Proof.
  intros A B P b f l H. induction l as [|x l (r & Q & E)]; [exists []; split; [constructor|reflexivity]|].
  cbn [flat_map]. destruct (b x) eqn:Bx.
  - exists (x :: r). split; [constructor; auto; now apply H|]. cbn [map app]. now rewrite E.
  - exists r. split; [|exact E]. apply pk_no; auto. intros Px. apply H in Px. congruence.
Qed.

Lemma flat_map_ext' : forall A B (f g : A -> list B) l, (forall x, f x = g x) -> flat_map f l = flat_map g l.
Proof. intros A B f g l H. induction l as [|x l IH]; cbn; [auto|now rewrite H, IH]. Qed.

Lemma final_C61_settings : forall it d, (forall k v, In (k, v) (db_settings d) -> k = 0 \/ k = 1) ->
  exists ls, tool_run it d TSettings = (ls, None) /\
    Forall2 (fun kv j => exists name, setting_name (fst kv) name /\ j = JObj [("settings_id", JStr name); ("data", JStr (snd kv))])
      (db_settings d) ls.
Proof.
  intros it d. cbn [tool_run]. induction (db_settings d) as [|[k v] l IH]; intros H; cbn [query_settings].
  - exists []. auto.
  - destruct IH as (ls & E & F). { intros k' v' I. apply (H k' v'). now right. }
    rewrite E. destruct (H k v (or_introl eq_refl)) as [->| ->]; cbn; eexists; (split; [reflexivity|]); constructor; auto;
      eexists; (split; [|reflexivity]); [left|right]; auto.
Qed.

Lemma final_C61_last_id : forall it d server, exists r,
  picked (fun kv => wanted server (fst kv)) (db_ids d) r /\
  tool_run it d (TLastId server) = (map (fun kv => event_id_to_json (snd kv)) r, None).
Proof.
  intros it d server. destruct (picked_flat _ _ (fun kv => wanted server (fst kv)) (fun kv => negb (differs server (fst kv)))
    (fun kv => event_id_to_json (snd kv)) (db_ids d)) as (r & Q & E).
  { intros x. rewrite negb_true_iff. apply differs_spec. }
  exists r. split; auto. cbn [tool_run]. unfold query_last_event_id. rewrite <- E. f_equal. apply flat_map_ext'.
  intros x. now destruct (differs server (fst x)).
Qed.

Lemma final_C61_last_ts : forall it d server, exists r,
  picked (fun kv => wanted server (fst kv)) (db_tss d) r /\
  tool_run it d (TLastTs server) = (map (fun kv => timestamp_to_json (snd kv)) r, None).
Proof.
  intros it d server. destruct (picked_flat _ _ (fun kv => wanted server (fst kv)) (fun kv => negb (differs server (fst kv)))
    (fun kv => timestamp_to_json (snd kv)) (db_tss d)) as (r & Q & E).
  { intros x. rewrite negb_true_iff. apply differs_spec. }
  exists r. split; auto. cbn [tool_run]. unfold query_last_timestamp. rewrite <- E. f_equal. apply flat_map_ext'.
  intros x. now destruct (differs server (fst x)).
Qed.

Lemma final_C61_partition : forall it d part, exists r,
  picked (fun kv => wanted part (fst kv)) (db_parts d) r /\
  tool_run it d (TPartition part) =
    (map (fun kv => JObj [("partition_id", JInt (fst kv)); ("data", part_to_json (snd kv))]) r, None).
Proof.
  intros it d part. destruct (picked_flat _ _ (fun kv => wanted part (fst kv)) (fun kv => negb (differs part (fst kv)))
    (fun kv => JObj [("partition_id", JInt (fst kv)); ("data", part_to_json (snd kv))]) (db_parts d)) as (r & Q & E).
  { intros x. rewrite negb_true_iff. apply differs_spec. }
  exists r. split; auto. cbn [tool_run]. unfold query_partition. rewrite <- E. f_equal. apply flat_map_ext'.
  intros x. now destruct (differs part (fst x)).
Qed.

(** ** Texts of types *)

Lemma split_not_nil : forall c s, split_at c s <> [].
Proof. intros c [|a s]; cbn; [discriminate|]. destruct (Ascii.eqb a c); [discriminate|]. now destruct (split_at c s). Qed.

Lemma concat_cons : forall sep x y (l : list string), String.concat sep (x :: y :: l) = (x ++ sep ++ String.concat sep (y :: l))%string.
Proof. reflexivity. Qed.

Lemma split_names : forall s, names s (split_slash s).
Proof.
  unfold split_slash. induction s as [|a s (A & B & C)]; cbn [split_at].
  - split; [discriminate|]. split; [reflexivity|]. intros x [<-|[]] [].
  - destruct (Ascii.eqb_spec a "/") as [->|N].
    + split; [discriminate|]. split.
      * destruct (split_at "/" s) as [|y l] eqn:E; [now destruct A|]. rewrite concat_cons. cbn [append]. now rewrite B.
      * intros x [<-|I]; [intros []|auto].
    + destruct (split_at "/" s) as [|y l] eqn:E; [now destruct A|]. split; [discriminate|]. split.
      * rewrite <- B. destruct l as [|z l]; [reflexivity|]. now rewrite !concat_cons.
      * intros x [<-|I]; [|apply C; now right]. cbn [chars]. intros [->|J]; [congruence|]. apply (C y); [now left|auto].
Qed.

Lemma append_slash : forall x y r r', ~ In "/"%char (chars x) -> ~ In "/"%char (chars y) ->
  (x ++ String "/" r)%string = (y ++ String "/" r')%string -> x = y /\ r = r'.
Proof.
  induction x as [|a x IH]; intros [|b y] r r' Nx Ny; cbn [append chars] in *; intros E.
  - injection E as ->. auto.
  - injection E as <- _. exfalso. apply Ny. now left.
  - injection E as -> _. exfalso. apply Nx. now left.
  - injection E as -> E. apply IH in E; [|intros I; apply Nx; now right|intros I; apply Ny; now right]. destruct E as [-> ->]. auto.
Qed.

Lemma no_slash_app : forall x y r, ~ In "/"%char (chars x) -> x <> (y ++ String "/" r)%string.
Proof.
  induction x as [|a x IH]; intros [|b y] r N E; cbn [append chars] in *; try discriminate.
  - injection E as -> _. apply N. now left.
  - injection E as -> E. eapply IH; [|exact E]. intros I. apply N. now right.
Qed.

Lemma names_unique : forall s t t', names s t -> names s t' -> t = t'.
Proof.
  intros s t. revert s. induction t as [|x t IH]; intros s t' (A & B & C) (A' & B' & C'); [now destruct A|].
  destruct t' as [|x' t']; [now destruct A'|].
  destruct t as [|y t], t' as [|y' t'].
  - cbn in B, B'. congruence.
  - exfalso. rewrite concat_cons in B'. cbn [append] in B'. cbn in B. rewrite <- B in B'.
    eapply no_slash_app; [|symmetry; exact B']. apply C. now left.
  - exfalso. rewrite concat_cons in B. cbn [append] in B. cbn in B'. rewrite <- B' in B.
    eapply no_slash_app; [|symmetry; exact B]. apply C'. now left.
  - rewrite concat_cons in B, B'. cbn [append] in B, B'. rewrite <- B in B'. apply append_slash in B'.
    + destruct B' as [-> B']. f_equal. apply (IH (String.concat "/" (y :: t))).
      * split; [discriminate|]. split; auto. intros z I. apply C. now right.
      * split; [discriminate|]. split; auto. intros z I. apply C'. now right.
    + apply C'. now left.
    + apply C. now left.
Qed.

Lemma final_C61_names : forall s t, names s t <-> t = split_slash s.
Proof.
  intros s t. split; [|intros ->; apply split_names]. intros H. apply (names_unique s); auto. apply split_names.
Qed.

(** ** Timeseries *)

Lemma final_C61_timeseries : forall it d part server types, types_ok types -> exists r,
  picked (fun kv => wanted part (fst (fst (fst kv))) /\ wanted server (eid_server (snd (fst kv))) /\
                    wanted_type types (ev_type (snd kv))) (db_ts d) r /\
  tool_run it d (TTimeseries part server types) = (map (fun kv => event_to_json (snd kv)) r, None).
Proof.
  intros it d part server types T.
  set (qs := match option_map (map split_slash) types with None => [["*"]] | Some ts => ts end).
  assert (V : Forall valid_query qs).
  { unfold qs. destruct types as [l|]; cbn [option_map].
    - apply Forall_forall. intros q I. apply in_map_iff in I. destruct I as (s & <- & I). apply (T l s); auto. apply split_names.
    - constructor; [|constructor]. intros p r E. destruct p as [|x [|y p]]; cbn in E; try discriminate. congruence. }
  destruct (final_C01 qs) as [C1 C2]. destruct (C1 V) as (n & En). specialize (C2 n En).
  assert (W : forall t, node_matches n t = true <-> wanted_type types t).
  { intros t. rewrite C2. unfold qs, wanted_type, selects. destruct types as [l|]; cbn [option_map].
    - split.
      + intros (q & I & Vq & M) l' [= <-]. apply in_map_iff in I. destruct I as (s & <- & I). exists s, (split_slash s).
        split; auto. split; [apply split_names|auto].
      + intros H. destruct (H l eq_refl) as (s & q & I & N & Vq & M). exists q. split; auto. apply in_map_iff. exists s. split; auto.
        symmetry. now apply final_C61_names.
    - split; [intros _ l [=]|]. intros _. exists ["*"]. split; [now left|]. split; [|constructor].
      intros p r E. destruct p as [|x [|y p]]; cbn in E; try discriminate. congruence. }
  cbn [tool_run]. unfold query_timeseries. match goal with |- context[py_create ?x] => change (py_create x) with (py_create qs) end. rewrite En.
  destruct (picked_flat _ _ (fun kv : ts_key * event => wanted part (fst (fst (fst kv))) /\ wanted server (eid_server (snd (fst kv))) /\
                    wanted_type types (ev_type (snd kv)))
    (fun kv => negb (differs part (fst (fst (fst kv)))) && (negb (differs server (eid_server (snd (fst kv)))) && node_matches n (ev_type (snd kv))))
    (fun kv => event_to_json (snd kv)) (db_ts d)) as (r & Q & E).
  { intros x. rewrite !andb_true_iff, !negb_true_iff, !differs_spec, W. reflexivity. }
  exists r. split; auto. f_equal. refine (eq_trans _ E). apply flat_map_ext'. intros [[[p t] i] e]. cbn [fst snd].
  destruct (differs part p); [reflexivity|]. destruct (differs server (eid_server i)); [reflexivity|].
  now destruct (node_matches n (ev_type e)).
Qed.

(** ** JSON of events *)

Lemma hex_digit_inj : forall a b, 0 <= a < 16 -> 0 <= b < 16 -> hex_digit a = hex_digit b -> a = b.
Proof.
  intros a b Ha Hb H. unfold hex_digit in H. apply (f_equal nat_of_ascii) in H.
  rewrite (nat_ascii_embedding (Z.to_nat (if a <? 10 then _ else _))) in H by (destruct (a <? 10) eqn:E; lia).
  rewrite (nat_ascii_embedding (Z.to_nat (if b <? 10 then _ else _))) in H by (destruct (b <? 10) eqn:E; lia).
  apply Z2Nat.inj in H; [|destruct (a <? 10) eqn:E; lia|destruct (b <? 10) eqn:E; lia].
  destruct (a <? 10) eqn:Ea, (b <? 10) eqn:Eb; lia.
Qed.

Lemma hex_inj : forall a b, (forall x, In x a -> 0 <= x < 256) -> (forall x, In x b -> 0 <= x < 256) -> hex a = hex b -> a = b.
Proof.
  induction a as [|x a IH]; intros [|y b] Ha Hb E; cbn [hex] in E; try discriminate; auto.
  injection E as E1 E2 E3. f_equal.
  - assert (Hx := Ha x (or_introl eq_refl)). assert (Hy := Hb y (or_introl eq_refl)).
    apply hex_digit_inj in E1; [|split; [apply Z.div_pos|apply Z.div_lt_upper_bound]; lia|split; [apply Z.div_pos|apply Z.div_lt_upper_bound]; lia].
    apply hex_digit_inj in E2; [|apply Z.mod_pos_bound; lia|apply Z.mod_pos_bound; lia].
    rewrite (Z.div_mod x 16), (Z.div_mod y 16) by lia. congruence.
  - apply IH; auto; intros z I; [apply Ha|apply Hb]; now right.
Qed.

Lemma map_JStr_inj : forall a b, map JStr a = map JStr b -> a = b.
Proof. induction a as [|x a IH]; intros [|y b] E; try discriminate; auto. cbn in E. injection E as -> E. f_equal. auto. Qed.

Lemma final_C61_json : forall a b, bytes_ok a -> bytes_ok b -> event_to_json a = event_to_json b -> a = b.
Proof.
  intros [[s u i] ty [ts tu] src p] [[s' u' i'] ty' [ts' tu'] src' p'] Ha Hb H.
  unfold event_to_json, event_id_to_json, timestamp_to_json in H.
  cbn [ev_id ev_type ev_ts ev_src ev_payload eid_server eid_session eid_instance ts_s ts_us] in H.
  injection H as -> -> -> Et -> -> Es Ep. apply map_JStr_inj in Et. subst ty'.
  f_equal.
  - destruct src as [[q w]|], src' as [[q' w']|]; cbn [ts_s ts_us] in Es; try discriminate; auto. injection Es as -> ->. reflexivity.
  - destruct p as [[t dt|j]|], p' as [[t' dt'|j']|]; cbn [payload_to_json] in Ep; try discriminate; auto.
    + injection Ep as -> E. f_equal. f_equal. apply hex_inj; auto.
      * apply (Ha t'). reflexivity.
      * apply (Hb t'). reflexivity.
    + injection Ep as ->. reflexivity.
Qed.

(** ** References and latest events *)

Lemma final_C61_ref : forall it d server, tool_run it d (TRef server) = ([], Some TypeError).
Proof. reflexivity. Qed.

Lemma final_C61_latest_types : forall it d types, tool_run it d (TLatest (Some types)) = ([], None).
Proof. intros it d types. cbn [tool_run]. induction (db_ref d) as [|[i refs] l IH]; [reflexivity|]. cbn [query_ref]. exact IH. Qed.

Lemma print_latest : forall i refs k, In (LatestRef k) refs -> snd (print_refs i refs) = Some AttributeError.
Proof.
  intros i. induction refs as [|[k'|[[p t] j]] refs IH]; intros k I; [destruct I|reflexivity|].
  destruct I as [I|I]; [discriminate|]. cbn [print_refs]. apply IH in I.
  destruct (print_refs i refs) as [out x]. exact I.
Qed.

Lemma print_other : forall i refs, (forall k, ~ In (LatestRef k) refs) -> snd (print_refs i refs) = None.
Proof.
  intros i. induction refs as [|[k'|[[p t] j]] refs IH]; intros H; [reflexivity|exfalso; apply (H k'); now left|].
  cbn [print_refs]. assert (Q : snd (print_refs i refs) = None) by (apply IH; intros k I; apply (H k); now right).
  destruct (print_refs i refs) as [out x]. exact Q.
Qed.

Definition latest_dec : forall refs, (exists k, In (LatestRef k) refs) \/ (forall k, ~ In (LatestRef k) refs).
Proof.
  induction refs as [|[k|k] refs IH]; [right; intros k []|left; exists k; now left|].
  destruct IH as [(k' & I)|N]; [left; exists k'; now right|right]. intros k' [I|I]; [discriminate|now apply (N k')].
Qed.

Lemma final_C61_latest_all : forall it d, (forall l, Permutation (it l) l) ->
  (forall i r, listed d i r <-> at_ref d r i) -> db_latest d <> [] ->
  snd (tool_run it d (TLatest None)) = Some AttributeError.
Proof.
  intros it d P X N. cbn [tool_run].
  assert (L : exists i refs k, In (i, refs) (db_ref d) /\ In (LatestRef k) refs).
  { destruct (db_latest d) as [|[k e] l] eqn:E; [now destruct N|].
    assert (A : listed d (ev_id e) (LatestRef k)).
    { apply X. exists e. rewrite E. split; [now left|reflexivity]. }
    destruct A as (rs & I & J). exists (ev_id e), rs, k. auto. }
  destruct L as (i & refs & k & I & J). induction (db_ref d) as [|[j rs] l IH]; [destruct I|]. cbn [query_ref].
  destruct (latest_dec rs) as [(k' & K)|K].
  - assert (Q : snd (print_refs j (it rs)) = Some AttributeError).
    { apply (print_latest _ _ k'). eapply Permutation_in; [apply Permutation_sym, P|exact K]. }
    destruct (print_refs j (it rs)) as [out x]. cbn [snd] in Q. subst x. reflexivity.
  - assert (Q : snd (print_refs j (it rs)) = None).
    { apply print_other. intros k' K'. apply (K k'). eapply Permutation_in; [apply P|exact K']. }
    destruct I as [[= -> ->]|I]; [exfalso; now apply (K k)|].
    destruct (print_refs j (it rs)) as [out x]. cbn [snd] in Q. subst x. specialize (IH I).
    destruct (query_ref it l false) as [out' x]. exact IH.
Qed.
