(** A concrete JSON and SBS codec, and files of former versions, used by
    examples. *)
From Coq Require Import String Ascii Bool ZArith Lia Permutation List.
From Verif Require Import Base Kv Model_Types Spec_Order Model_Codec Spec_Codec Proof_Codec Keys Model_Sbs Model_Lmdb Model_Convert Spec_Convert
  Model_ConvertBytes Spec_ConvertBytes Proof_ConvertBytes Ex_Convert.
Import ListNotations.
Open Scope string_scope.
Open Scope list_scope.
Open Scope Z_scope.

(** ** Trees as numbers, numbers as text *)

Inductive tree := Leaf (z : Z) | Node (a b : tree).
Fixpoint tree_put (t : tree) : list Z := match t with Leaf z => [0; z] | Node a b => 1 :: tree_put a ++ tree_put b end.
Fixpoint tree_get (fuel : nat) (l : list Z) : option (tree * list Z) :=
  match fuel, l with
  | S n, x :: l =>
      if x =? 0 then match l with z :: l => Some (Leaf z, l) | [] => None end
      else do a <- tree_get n l; do b <- tree_get n (snd a); Some (Node (fst a) (fst b), snd b)
  | _, _ => None
  end.
Lemma tree_get_put : forall t n r, (List.length (tree_put t) <= n)%nat -> tree_get n (tree_put t ++ r) = Some (t, r).
Proof.
  induction t as [z|a IHa b IHb]; intros [|n] r H; cbn [tree_put List.length app tree_get] in *; try lia; [reflexivity|].
  rewrite app_length in H. rewrite <- app_assoc. change (1 =? 0) with false. cbv iota. rewrite IHa by lia. cbn [obind snd fst]. rewrite IHb by lia. reflexivity.
Qed.
Definition of_numbers (l : list Z) : option tree := do x <- tree_get (List.length l) l; Some (fst x).
Lemma of_numbers_put : forall t, of_numbers (tree_put t) = Some t.
Proof. intros. unfold of_numbers. rewrite <- (app_nil_r (tree_put t)) at 2. rewrite tree_get_put by lia. reflexivity. Qed.

Fixpoint pos_put (p : positive) (r : string) : string :=
  match p with xH => String ";" r | xO q => String "0" (pos_put q r) | xI q => String "1" (pos_put q r) end.
Fixpoint pos_get (s : string) : option (positive * string) :=
  match s with
  | EmptyString => None
  | String c r =>
      if Ascii.eqb c ";" then Some (xH, r)
      else do x <- pos_get r; Some ((if Ascii.eqb c "0" then xO (fst x) else xI (fst x)), snd x)
  end.
Lemma pos_get_put : forall p r, pos_get (pos_put p r) = Some (p, r).
Proof. induction p as [p IH|p IH|]; intros r; cbn; try rewrite IH; reflexivity. Qed.
Definition z_put (z : Z) (r : string) : string :=
  match z with Z0 => String "z" r | Zpos p => String "+" (pos_put p r) | Zneg p => String "-" (pos_put p r) end.
Definition z_get (s : string) : option (Z * string) :=
  match s with
  | EmptyString => None
  | String c r =>
      if Ascii.eqb c "z" then Some (0, r)
      else do x <- pos_get r; Some ((if Ascii.eqb c "+" then Zpos (fst x) else Zneg (fst x)), snd x)
  end.
Lemma z_get_put : forall z r, z_get (z_put z r) = Some (z, r).
Proof. intros [|p|p] r; cbn; try rewrite pos_get_put; reflexivity. Qed.
Fixpoint zs_put (l : list Z) : string := match l with [] => "" | z :: l => z_put z (zs_put l) end.
Fixpoint zs_get (fuel : nat) (s : string) : option (list Z) :=
  match s, fuel with
  | EmptyString, _ => Some []
  | _, O => None
  | _, S n => do x <- z_get s; do l <- zs_get n (snd x); Some (fst x :: l)
  end.
Lemma z_put_cons : forall z r, exists c s, z_put z r = String c s /\ (String.length r <= String.length s)%nat.
Proof.
  assert (P : forall p r, (String.length r < String.length (pos_put p r))%nat).
  { induction p as [p IH|p IH|]; intros r; cbn [pos_put String.length]; try specialize (IH r); lia. }
  intros [|p|p] r; cbn; eexists _, _; (split; [reflexivity|]); auto; specialize (P p r); lia.
Qed.
Lemma zs_get_put : forall l n, (String.length (zs_put l) <= n)%nat -> zs_get n (zs_put l) = Some l.
Proof.
  induction l as [|z l IH]; intros n H; cbn [zs_put] in *; [now destruct n|]. destruct (z_put_cons z (zs_put l)) as (c & s & E & L). rewrite E in *. cbn [String.length] in H.
  destruct n as [|n]; [lia|]. cbn [zs_get]. rewrite <- E, z_get_put. cbn [obind snd fst]. now rewrite IH by lia.
Qed.

(** ** Trees of data *)

Fixpoint str_tree (s : string) : tree := match s with EmptyString => Leaf 0 | String a s => Node (Leaf (Z.of_N (N_of_ascii a))) (str_tree s) end.
Fixpoint tree_str (t : tree) : option string :=
  match t with
  | Leaf _ => Some EmptyString
  | Node (Leaf z) r => do s <- tree_str r; Some (String (ascii_of_N (Z.to_N z)) s)
  | _ => None
  end.
Lemma tree_str_tree : forall s, tree_str (str_tree s) = Some s.
Proof. induction s as [|a s IH]; [reflexivity|]. cbn [str_tree tree_str]. now rewrite IH, N2Z.id, ascii_N_embedding. Qed.
Fixpoint zs_tree (l : list Z) : tree := match l with [] => Leaf 0 | z :: l => Node (Leaf z) (zs_tree l) end.
Fixpoint tree_zs (t : tree) : option (list Z) :=
  match t with Leaf _ => Some [] | Node (Leaf z) r => do l <- tree_zs r; Some (z :: l) | _ => None end.
Lemma tree_zs_tree : forall s, tree_zs (zs_tree s) = Some s.
Proof. induction s as [|a s IH]; [reflexivity|]. cbn [zs_tree tree_zs]. now rewrite IH. Qed.

Definition bz (b : bool) : Z := if b then 1 else 0.
Lemma bz_eqb : forall b, (bz b =? 1) = b.
Proof. now intros []. Qed.

Fixpoint json_tree (j : json) : tree :=
  match j with
  | JNull => Node (Leaf 0) (Leaf 0)
  | JBool b => Node (Leaf 1) (Leaf (bz b))
  | JInt z => Node (Leaf 2) (Leaf z)
  | JFloat m e => Node (Leaf 3) (Node (Leaf m) (Leaf e))
  | JStr s => Node (Leaf 4) (str_tree s)
  | JArr l => Node (Leaf 5) ((fix go l := match l with [] => Leaf 0 | x :: l => Node (json_tree x) (go l) end) l)
  | JObj l => Node (Leaf 6) ((fix go l := match l with [] => Leaf 0 | (k, x) :: l => Node (Node (str_tree k) (json_tree x)) (go l) end) l)
  end.
Fixpoint tree_json (t : tree) : option json :=
  match t with
  | Node (Leaf k) d =>
      if k =? 0 then Some JNull
      else if k =? 1 then match d with Leaf z => Some (JBool (z =? 1)) | _ => None end
      else if k =? 2 then match d with Leaf z => Some (JInt z) | _ => None end
      else if k =? 3 then match d with Node (Leaf m) (Leaf e) => Some (JFloat m e) | _ => None end
      else if k =? 4 then do s <- tree_str d; Some (JStr s)
      else if k =? 5 then
        do l <- (fix go t := match t with Leaf _ => Some [] | Node a r => do x <- tree_json a; do l <- go r; Some (x :: l) end) d; Some (JArr l)
      else
        do l <- (fix go t := match t with Leaf _ => Some [] | Node (Node k a) r => do s <- tree_str k; do x <- tree_json a; do l <- go r; Some ((s, x) :: l) | _ => None end) d;
        Some (JObj l)
  | _ => None
  end.
Lemma tree_json_tree : forall j, tree_json (json_tree j) = Some j.
Proof.
  fix IH 1. intros [|b|z|m e|s|l|l]; try reflexivity.
  - cbn. now rewrite bz_eqb.
  - cbn. now rewrite tree_str_tree.
  - cbn [json_tree tree_json]. change (5 =? 0) with false. change (5 =? 1) with false. change (5 =? 2) with false. change (5 =? 3) with false. change (5 =? 4) with false.
    change (5 =? 5) with true. cbv iota.
    match goal with |- (do l <- ?x; _) = _ => assert (E : x = Some l); [|now rewrite E] end.
    induction l as [|x l IHl]; [reflexivity|]. rewrite IH. cbn [obind]. now rewrite IHl.
  - cbn [json_tree tree_json]. change (6 =? 0) with false. change (6 =? 1) with false. change (6 =? 2) with false. change (6 =? 3) with false. change (6 =? 4) with false.
    change (6 =? 5) with false. cbv iota.
    match goal with |- (do l <- ?x; _) = _ => assert (E : x = Some l); [|now rewrite E] end.
    induction l as [|[k x] l IHl]; [reflexivity|]. rewrite tree_str_tree. cbn [obind]. rewrite IH. cbn [obind]. now rewrite IHl.
Qed.

Fixpoint sbs_tree (j : sbs) : tree :=
  match j with
  | SNone => Node (Leaf 0) (Leaf 0)
  | SBool b => Node (Leaf 1) (Leaf (bz b))
  | SInt z => Node (Leaf 2) (Leaf z)
  | SStr s => Node (Leaf 3) (str_tree s)
  | SBytes b => Node (Leaf 4) (zs_tree b)
  | SArr l => Node (Leaf 5) ((fix go l := match l with [] => Leaf 0 | x :: l => Node (sbs_tree x) (go l) end) l)
  | SChoice n d => Node (Leaf 7) (Node (str_tree n) (sbs_tree d))
  | SRec l => Node (Leaf 6) ((fix go l := match l with [] => Leaf 0 | (k, x) :: l => Node (Node (str_tree k) (sbs_tree x)) (go l) end) l)
  end.
Fixpoint tree_sbs (t : tree) : option sbs :=
  match t with
  | Node (Leaf k) d =>
      if k =? 0 then Some SNone
      else if k =? 1 then match d with Leaf z => Some (SBool (z =? 1)) | _ => None end
      else if k =? 2 then match d with Leaf z => Some (SInt z) | _ => None end
      else if k =? 3 then do s <- tree_str d; Some (SStr s)
      else if k =? 4 then do b <- tree_zs d; Some (SBytes b)
      else if k =? 5 then
        do l <- (fix go t := match t with Leaf _ => Some [] | Node a r => do x <- tree_sbs a; do l <- go r; Some (x :: l) end) d; Some (SArr l)
      else if k =? 7 then match d with Node n x => do n <- tree_str n; do x <- tree_sbs x; Some (SChoice n x) | _ => None end
      else
        do l <- (fix go t := match t with Leaf _ => Some [] | Node (Node k a) r => do s <- tree_str k; do x <- tree_sbs a; do l <- go r; Some ((s, x) :: l) | _ => None end) d;
        Some (SRec l)
  | _ => None
  end.
Lemma tree_sbs_tree : forall j, tree_sbs (sbs_tree j) = Some j.
Proof.
  fix IH 1. intros [|b|z|s|b|l|n d|l]; try reflexivity.
  - cbn. now rewrite bz_eqb.
  - cbn. now rewrite tree_str_tree.
  - cbn. now rewrite tree_zs_tree.
  - cbn [sbs_tree tree_sbs]. change (5 =? 0) with false. change (5 =? 1) with false. change (5 =? 2) with false. change (5 =? 3) with false. change (5 =? 4) with false.
    change (5 =? 5) with true. cbv iota.
    match goal with |- (do l <- ?x; _) = _ => assert (E : x = Some l); [|now rewrite E] end.
    induction l as [|x l IHl]; [reflexivity|]. rewrite IH. cbn [obind]. now rewrite IHl.
  - cbn [sbs_tree tree_sbs]. change (7 =? 0) with false. change (7 =? 1) with false. change (7 =? 2) with false. change (7 =? 3) with false. change (7 =? 4) with false.
    change (7 =? 5) with false. change (7 =? 7) with true. cbv iota. rewrite tree_str_tree. cbn [obind]. now rewrite IH.
  - cbn [sbs_tree tree_sbs]. change (6 =? 0) with false. change (6 =? 1) with false. change (6 =? 2) with false. change (6 =? 3) with false. change (6 =? 4) with false.
    change (6 =? 5) with false. change (6 =? 7) with false. cbv iota.
    match goal with |- (do l <- ?x; _) = _ => assert (E : x = Some l); [|now rewrite E] end.
    induction l as [|[k x] l IHl]; [reflexivity|]. rewrite tree_str_tree. cbn [obind]. rewrite IH. cbn [obind]. now rewrite IHl.
Qed.

(** Sets of references are iterated from the greatest. *)
Definition xc : codecs :=
  Codecs (fun j => zs_put (tree_put (json_tree j)))
         (fun s => do l <- zs_get (String.length s) s; do t <- of_numbers l; tree_json t)
         (fun _ d => tree_put (sbs_tree d))
         (fun _ b => do t <- of_numbers b; tree_sbs t)
         (@rev event_ref).
Definition anyfloat (m e : Z) : Prop := True.
Lemma xc_ok : codecs_ok xc anyfloat.
Proof.
  split; cbn [jenc jdec senc sdec iter xc].
  - intros j _. rewrite zs_get_put by lia. cbn [obind]. rewrite of_numbers_put. cbn [obind]. apply tree_json_tree.
  - intros t d _. rewrite of_numbers_put. cbn [obind]. apply tree_sbs_tree.
  - intros l. apply Permutation_sym, Permutation_rev.
Qed.

(** ** Files *)

Definition ts_bytes (t : timestamp) : bytes := be 8 (ts_s t + 2 ^ 63) ++ be 4 (ts_us t).
Definition eid_bytes (i : event_id) : bytes := be 8 (eid_server i) ++ be 8 (eid_session i) ++ be 8 (eid_instance i).
Definition part_bytes (p : part7) : bytes :=
  text (jenc xc (JObj [("order", JInt (p7_order p)); ("note", JNull); ("subscriptions", JArr (map (fun t => JArr (map JStr t)) (p7_subs p)))])).
Definition payload_sbs (p : payload7) : sbs :=
  match p with
  | P7Binary b => SChoice "binary" (SBytes b)
  | P7Json j => SChoice "json" (SStr (jenc xc j))
  | P7Sbs m t b => SChoice "sbs" (SRec [("module", optional_form SStr m); ("type", SStr t); ("data", SBytes b)])
  end.
Definition event6_bytes (e : event6) : bytes :=
  senc xc T_Event6 (SRec [("id", SRec [("server", SInt (e6_server e)); ("instance", SInt (e6_instance e))]); ("type", SArr (map SStr (e6_type e)));
    ("timestamp", ts_sbs (e6_ts e)); ("sourceTimestamp", optional_form ts_sbs (e6_src e)); ("payload", optional_form payload_sbs (e6_payload e))]).
Definition event7_bytes (e : event7) : bytes :=
  senc xc T_Event7 (SRec [("id", SRec [("server", SInt (eid_server (e7_id e))); ("session", SInt (eid_session (e7_id e))); ("instance", SInt (eid_instance (e7_id e)))]);
    ("type", SArr (map SStr (e7_type e))); ("timestamp", ts_sbs (e7_ts e)); ("sourceTimestamp", optional_form ts_sbs (e7_src e));
    ("payload", optional_form payload_sbs (e7_payload e))]).

(** Version 0.6: the database of [Ex_Convert.ex6]. *)
Definition env6_of (d : db6) : env :=
  [("system", [(text "last_event_id", be 8 3); (text "server_id", be 8 (match d6_server d with Some s => s | None => 0 end))]);
   ("latest", map (fun e => (text (jenc xc (JArr (map JStr (e6_type e)))), event6_bytes e)) (d6_latest d));
   ("ordered_data", map (fun x => let '((p, t, n), e) := x in (be 8 p ++ ts_bytes t ++ be 8 n, event6_bytes e)) (d6_data d));
   ("ordered_partition", map (fun x => (be 8 (fst x), part_bytes (snd x))) (d6_parts d));
   ("ordered_count", map (fun x => (be 8 (fst x), text (jenc xc (JInt (snd x))))) (d6_counts d))].
Definition env6 : env := env6_of ex6.

(** Version 0.7: two events of which one is stored twice. *)
Definition c1 : event7 := Ev7 (Eid 1 2 3) ["a"; "b"] (Ts 10 20) (Some (Ts 9 5)) (Some (P7Sbs None "T" [1; 255])).
Definition c2 : event7 := Ev7 (Eid 1 2 4) ["c"] (Ts (-5) 0) None (Some (P7Json (JArr [JInt 7; JStr "x"]))).
Definition db7x : db7 :=
  Db7 [(1, (Eid 1 2 4, Ts 10 20))]
      [(Eid 1 2 3, [LatestRef 1; TimeseriesRef (2, Ts 10 20, Eid 1 2 3)]); (Eid 1 2 4, [TimeseriesRef (2, Ts (-5) 0, Eid 1 2 4)])]
      [(1, c1)] [(1, ["a"; "b"])]
      [((2, Ts (-5) 0, Eid 1 2 4), c2); ((2, Ts 10 20, Eid 1 2 3), c1)]
      [(2, Part7 2 [["*"]; ["a"; "?"]])] [(2, 2)].
Definition key_bytes (k : ts_key) : bytes := let '(p, t, i) := k in be 8 p ++ ts_bytes t ++ eid_bytes i.
Definition ref_bytes (r : event_ref) : bytes := match r with LatestRef k => 1 :: be 8 k | TimeseriesRef k => 3 :: key_bytes k end.
Definition env7_of (d : db7) : env :=
  [("LATEST_DATA", map (fun x => (be 8 (fst x), event7_bytes (snd x))) (d7_latest d));
   ("LATEST_TYPE", map (fun x => (be 8 (fst x), text (jenc xc (JArr (map JStr (snd x)))))) (d7_types d));
   ("ORDERED_COUNT", map (fun x => (be 8 (fst x), be 8 (snd x))) (d7_counts d));
   ("ORDERED_DATA", map (fun x => (key_bytes (fst x), event7_bytes (snd x))) (d7_data d));
   ("ORDERED_PARTITION", map (fun x => (be 8 (fst x), part_bytes (snd x))) (d7_parts d));
   ("REF", map (fun x => (eid_bytes (fst x), concat (map ref_bytes (rev (snd x))))) (d7_ref d));
   ("SYSTEM", map (fun x => (be 8 (fst x), eid_bytes (fst (snd x)) ++ ts_bytes (snd (snd x)))) (d7_system d))].
Definition env7 : env := env7_of db7x.

Lemma uint_bytes : forall n v, 0 <= v < 256 ^ Z.of_nat n -> uint n v (be n v).
Proof. intros. now apply uint_be. Qed.
Ltac num := apply uint_bytes; cbn; lia.
Ltac form_ts := eexists _, _; split; [reflexivity|]; split; num.
Ltac form_eid := eexists _, _, _; split; [reflexivity|]; split; [num|]; split; num.
Lemma part_bytes_form : forall p, part_form xc anyfloat p (part_bytes p).
Proof.
  intros p. eexists. split; [reflexivity|]. split; [|split; cbn; auto]. constructor; [cbn; nodup|].
  repeat constructor; cbn. apply Forall_forall. intros x Hx. apply in_map_iff in Hx as (t & <- & _). constructor. apply Forall_forall. intros x Hx.
  apply in_map_iff in Hx as (s & <- & _). constructor.
Qed.

Ltac tab := repeat (constructor; [split; cbn [fst snd]|]); [..|constructor].
Lemma env6_file : file6 xc anyfloat env6 ex6.
Proof.
  split; try reflexivity.
  - eexists. split; [reflexivity|]. split; [cbn; nodup|]. intros v. split.
    + intros H. vm_compute in H. injection H as <-. eexists. split; [cbn; auto|]. num.
    + intros (b & [H|[H|[]]] & U); injection H; intros; [discriminate|]. subst b. destruct U as (_ & _ & <-). reflexivity.
  - eexists. split; [reflexivity|]. repeat constructor.
  - eexists. split; [reflexivity|]. tab; try reflexivity; (eexists _, _, _; split; [reflexivity|]; split; [num|]; split; [form_ts|num]).
  - eexists. split; [reflexivity|]. tab; [num|apply part_bytes_form].
  - eexists. split; [reflexivity|]. tab; [num|reflexivity].
Qed.
Lemma ex6_wf : wf6 anyfloat ex6.
Proof.
  split; [|split].
  - intros e [H|H]; cbn in H; repeat (destruct H as [<-|H]; [cbn; unfold u64, ts_fits; cbn; repeat split; try lia; constructor|]); destruct H.
  - intros p n [[= <- <-]|[]]. unfold u64. cbn. lia.
  - unfold u64. cbn. lia.
Qed.
Lemma db7x_valid : valid7 db7x.
Proof. split; try (cbn; nodup). intros p x [[= <- <-]|[]]. cbn. auto. Qed.
Lemma db7x_wf : wf7 anyfloat db7x.
Proof. intros e [H|H]; cbn in H; repeat (destruct H as [<-|H]; [cbn; repeat constructor|]); destruct H. Qed.
Lemma env7_file : file7 xc anyfloat env7 db7x.
Proof.
  split; try reflexivity.
  - eexists. split; [reflexivity|]. tab; [num|]. eexists _, _. split; [reflexivity|]. split; [form_eid|form_ts].
  - eexists. split; [reflexivity|]. constructor; [|constructor; [|constructor]]; (split; [form_eid|]); cbn [fst snd].
    + exists [TimeseriesRef (2, Ts 10 20, Eid 1 2 3); LatestRef 1], [ref_bytes (TimeseriesRef (2, Ts 10 20, Eid 1 2 3)); ref_bytes (LatestRef 1)].
      split; [apply perm_swap|]. split; [|reflexivity]. repeat (constructor; [eexists; split; [reflexivity|]|]); try num; [|constructor].
      eexists _, _, _. split; [reflexivity|]. split; [num|]. split; [form_ts|form_eid].
    + exists [TimeseriesRef (2, Ts (-5) 0, Eid 1 2 4)], [ref_bytes (TimeseriesRef (2, Ts (-5) 0, Eid 1 2 4))].
      split; [reflexivity|]. split; [|reflexivity]. constructor; [|constructor]. eexists; split; [reflexivity|].
      eexists _, _, _. split; [reflexivity|]. split; [num|]. split; [form_ts|form_eid].
  - eexists. split; [reflexivity|]. tab; [num|reflexivity].
  - eexists. split; [reflexivity|]. tab; [num|reflexivity].
  - eexists. split; [reflexivity|]. tab; try reflexivity; (eexists _, _, _; split; [reflexivity|]; split; [num|]; split; [form_ts|form_eid]).
  - eexists. split; [reflexivity|]. tab; [num|apply part_bytes_form].
  - eexists. split; [reflexivity|]. tab; num.
Qed.
