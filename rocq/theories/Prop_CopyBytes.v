(** C83: files of copies, copies that fail or stop, and second attempts. *)
From Coq Require Import String Bool ZArith Lia List.
From Verif Require Import Base Kv Model_Types Model_Codec Keys Model_Sbs Model_Lmdb Model_Copy Spec_Copy Model_Convert Spec_Convert Model_ConvertBytes Spec_ConvertBytes
  Model_ConvertCut Spec_ConvertCut Model_CopyBytes Spec_CopyBytes Proof_CopyBytes Proof_CopyBytes2 Ex_Convert Ex_ConvertBytes Ex_CopyBytes.
Import ListNotations.
Open Scope string_scope.
Open Scope list_scope.
Open Scope Z_scope.

(** C83.  A good file is copied: from the copy one reads what was in the source
    without the skipped parts, the copy is a good file, and no other file is
    changed.  The content is that of [copy_content], so that C47, C81 and C82
    hold of it. *)
Theorem C83_copy_partial : forall C F, codecs_ok C F -> forall sl st src dst fs e d,
  dget String.eqb src fs = Some e -> dget String.eqb dst fs = None -> file_ok e -> read9 C e = Some d ->
  exists fs' l c, copy_files C sl st src dst fs = (fs', true) /\ dget String.eqb dst fs' = Some l /\ file_ok l /\ read9 C l = Some c /\
    c = copy_content sl st d /\ copy_of sl st d c /\ forall p, p <> dst -> dget String.eqb p fs' = dget String.eqb p fs.
Proof. exact final_C83_copy. Qed.
Print Assumptions C83_copy_partial.

(** C83.  Without skipping, each database is the same byte for byte, whether its
    entries can be read or not. *)
Theorem C83_same_partial : forall C src dst fs e,
  dget String.eqb src fs = Some e -> dget String.eqb dst fs = None -> file_ok e ->
  exists fs' l, copy_files C false false src dst fs = (fs', true) /\ dget String.eqb dst fs' = Some l /\
    forall n, database9 n -> dget String.eqb n l = dget String.eqb n e.
Proof. exact final_C83_same. Qed.
Print Assumptions C83_same_partial.

(** C83.  Wherever a copy stops, all files but the destination, so the source
    too, are as they were. *)
Theorem C83_source_partial : forall C sl st src dst fs fs', copy_stopped C sl st src dst fs fs' ->
  forall p, p <> dst -> dget String.eqb p fs' = dget String.eqb p fs.
Proof. exact final_C83_others. Qed.
Print Assumptions C83_source_partial.

(** C83.  The destination does not exist, has no entries, or is the whole copy:
    there is never a part only. *)
Theorem C83_atomic_partial : forall C sl st src dst fs fs', dget String.eqb dst fs = None -> copy_stopped C sl st src dst fs fs' ->
  dget String.eqb dst fs' = None \/
  (exists l, dget String.eqb dst fs' = Some l /\ no_data l) \/
  copy_files C sl st src dst fs = (fs', true).
Proof. exact final_C83_atomic. Qed.
Print Assumptions C83_atomic_partial.

(** C83.  Copies that come to an end, with success or not, are among those
    considered; one that fails leaves all files as they were, or a new
    destination without entries. *)
Theorem C83_ends : forall C sl st src dst fs fs' b, copy_files C sl st src dst fs = (fs', b) -> copy_stopped C sl st src dst fs fs'.
Proof. exact final_C83_ends. Qed.
Print Assumptions C83_ends.

Theorem C83_failed_partial : forall C sl st src dst fs fs', copy_files C sl st src dst fs = (fs', false) ->
  fs' = fs \/ (dget String.eqb dst fs = None /\ exists l, dget String.eqb dst fs' = Some l /\ no_data l).
Proof. exact final_C83_failed. Qed.
Print Assumptions C83_failed_partial.

(** C83.  After removal of the destination, a second attempt gives the same files
    as a copy that was not stopped. *)
Theorem C83_again_partial : forall C F, codecs_ok C F -> forall sl st src dst fs fs' e d,
  NoDup (keys fs) -> dget String.eqb src fs = Some e -> dget String.eqb dst fs = None -> file_ok e -> read9 C e = Some d ->
  copy_stopped C sl st src dst fs fs' ->
  exists fs2 fs3 l, copy_files C sl st src dst fs = (fs2, true) /\ copy_files C sl st src dst (ddel String.eqb dst fs') = (fs3, true) /\
    dget String.eqb dst fs2 = Some l /\ forall p, dget String.eqb p fs3 = dget String.eqb p fs2.
Proof. exact final_C83_again. Qed.
Print Assumptions C83_again_partial.

(** C83.  Simply repeating a stopped copy may fail: for each good source there is
    a moment where the destination exists already, without entries. *)
Theorem C83_repeat_refuted : forall C sl st src dst fs e,
  dget String.eqb src fs = Some e -> dget String.eqb dst fs = None -> file_ok e ->
  exists fs' l, copy_stopped C sl st src dst fs fs' /\ dget String.eqb dst fs' = Some l /\ no_data l /\ copy_files C sl st src dst fs' = (fs', false).
Proof. exact final_C83_repeat. Qed.
Print Assumptions C83_repeat_refuted.

(** C83.  A stopped copy may go unnoticed: for each good source there is a moment
    after which a server, whatever its configuration, starts on the destination as
    on a database without events. *)
Theorem C83_noticed_refuted : forall C sl st src dst fs e cf,
  dget String.eqb src fs = Some e -> dget String.eqb dst fs = None -> file_ok e ->
  exists fs' b, copy_stopped C sl st src dst fs fs' /\ dmem String.eqb dst fs' = true /\ server_start C cf dst fs' = Some b /\
    db_ids (fst b) = [] /\ db_ref (fst b) = [] /\ db_latest (fst b) = [] /\ db_ts (fst b) = [].
Proof. exact final_C83_noticed. Qed.
Print Assumptions C83_noticed_refuted.

(** C83.  Copying a file of a former version fails, but leaves a destination: no
    further copy to it is possible, and no server starts on it. *)
Theorem C83_former : forall C F sl st src dst fs e,
  dget String.eqb src fs = Some e -> dget String.eqb dst fs = None -> (exists d, file7 C F e d) \/ (exists d, file6 C F e d) ->
  exists fs' l, copy_files C sl st src dst fs = (fs', false) /\ dget String.eqb dst fs' = Some l /\
    (forall sl' st' src', copy_files C sl' st' src' dst fs' = (fs', false)) /\ (forall cf, server_start C cf dst fs' = None).
Proof. exact final_C83_former. Qed.
Print Assumptions C83_former.

(** A good file with references that are kept in part; its copies; *)
Example C83_example : codecs_ok xc anyfloat /\ file_ok env9 /\ (exists d, read9 xc env9 = Some d) /\ NoDup (keys fs9) /\
  dget String.eqb "db" fs9 = Some env9 /\ dget String.eqb "new" fs9 = None.
Proof.
  split; [exact xc_ok|]. split; [exact env9_ok|]. split; [eexists; vm_compute; reflexivity|].
  split; [repeat constructor; cbn; intuition discriminate|]. split; reflexivity.
Qed.
Definition copied (sl st : bool) : option (list Z * nat * list (event_id * list event_ref)) :=
  do e <- dget String.eqb "new" (fst (copy_files xc sl st "db" "new" fs9)); do c <- read9 xc e; Some (keys (db_latest c), List.length (db_ts c), db_ref c).
Example C83_copies_example :
  copied false false = Some ([1], 2%nat, [(Eid 1 2 3, [LatestRef 1; TimeseriesRef (2, Ts 10 20, Eid 1 2 3)]); (Eid 1 2 4, [TimeseriesRef (2, Ts (-5) 0, Eid 1 2 4)])]) /\
  copied true false = Some ([], 2%nat, [(Eid 1 2 3, [TimeseriesRef (2, Ts 10 20, Eid 1 2 3)]); (Eid 1 2 4, [TimeseriesRef (2, Ts (-5) 0, Eid 1 2 4)])]) /\
  copied false true = Some ([1], 0%nat, [(Eid 1 2 3, [LatestRef 1])]) /\
  copied true true = Some ([], 0%nat, []).
Proof. vm_compute. repeat split. Qed.
(** a copy of the file it was converted from fails and leaves a file, on which no
    server starts. *)
Example C83_former_example : (exists d, file7 xc anyfloat env7 d) /\
  (let r := copy_files xc false false "old" "new" fs9 in keys (fst r) = ["old"; "db"; "other"; "new"] /\ snd r = false).
Proof. split; [exists db7x; exact env7_file|]. vm_compute. repeat split. Qed.
