(** C80: a conversion that stopped before its end can be repeated. *)
From Coq Require Import String Bool ZArith Lia List.
From Verif Require Import Base Kv Model_Types Model_Codec Keys Model_Sbs Model_Lmdb Model_Convert Spec_Convert Model_ConvertBytes Spec_ConvertBytes
  Model_ConvertCut Spec_ConvertCut Proof_ConvertCut Proof_ConvertCut2 Ex_Convert Ex_ConvertBytes.
Import ListNotations.
Open Scope string_scope.
Open Scope list_scope.
Open Scope Z_scope.

(** C80.  Wherever a conversion stops: all files but the destination and the
    intermediate one, so the source too, are as they were. *)
Theorem C80_source_partial : forall C src dst fs fs', NoDup (keys fs) -> src <> (dst ++ ".v07")%string -> stopped C src dst fs fs' ->
  forall p, p <> dst -> p <> (dst ++ ".v07")%string -> dget String.eqb p fs' = dget String.eqb p fs.
Proof. exact final_C80_source. Qed.
Print Assumptions C80_source_partial.

(** C80.  The destination does not exist, has no entries, or everything is read
    from it: there is never a part of the source only. *)
Theorem C80_atomic_partial : forall C F, codecs_ok C F -> forall src dst fs fs' e expected,
  NoDup (keys fs) -> src <> (dst ++ ".v07")%string -> dget String.eqb src fs = Some e -> good_source C F e expected -> stopped C src dst fs fs' ->
  dget String.eqb dst fs' = None \/
  (exists l, dget String.eqb dst fs' = Some l /\ (no_data l \/ exists c, read9 C l = Some c /\ expected c)).
Proof. exact final_C80_atomic. Qed.
Print Assumptions C80_atomic_partial.

(** C80.  If the destination was not created yet, or is removed, a second attempt
    succeeds and everything is read from its result, whatever the first one left
    in the intermediate file. *)
Theorem C80_again_partial : forall C F, codecs_ok C F -> forall src dst fs fs' fs2 left e expected,
  NoDup (keys fs) -> src <> (dst ++ ".v07")%string -> dget String.eqb src fs = Some e -> good_source C F e expected -> stopped C src dst fs fs' ->
  (fs2 = ddel String.eqb dst fs' \/ (fs2 = fs' /\ dget String.eqb dst fs' = None)) ->
  exists fs3 l c, convert_files C left src dst fs2 = (fs3, true) /\ dget String.eqb dst fs3 = Some l /\ read9 C l = Some c /\ expected c /\
    get_version C l = Some V9 /\ forall p, p <> dst -> p <> (dst ++ ".v07")%string -> dget String.eqb p fs3 = dget String.eqb p fs.
Proof. exact final_C80_again. Qed.
Print Assumptions C80_again_partial.

(** C80.  Conversions that were not stopped are among those considered. *)
Theorem C80_complete : forall C src dst fs fs' e v, NoDup (keys fs) -> src <> (dst ++ ".v07")%string ->
  dget String.eqb src fs = Some e -> dget String.eqb dst fs = None -> get_version C e = Some v -> v <> V9 ->
  convert_files C None src dst fs = (fs', true) -> stopped C src dst fs fs'.
Proof. exact final_C80_runs. Qed.
Print Assumptions C80_complete.

(** C80.  Simply repeating a stopped conversion may fail: for each source there is
    a moment where the destination exists already, without entries. *)
Theorem C80_repeat_refuted : forall C F, codecs_ok C F -> forall src dst fs e expected,
  NoDup (keys fs) -> src <> (dst ++ ".v07")%string -> dget String.eqb src fs = Some e -> dget String.eqb dst fs = None -> good_source C F e expected ->
  exists fs' l, stopped C src dst fs fs' /\ dget String.eqb dst fs' = Some l /\ no_data l /\
    forall left, convert_files C left src dst fs' = (fs', false).
Proof. exact final_C80_refused. Qed.
Print Assumptions C80_repeat_refuted.

(** C80.  What a stopped conversion left is not noticed by a server, whatever its
    configuration: it is opened as a database without events. *)
Theorem C80_noticed_refuted : forall C F, codecs_ok C F -> forall src dst fs e expected cf,
  NoDup (keys fs) -> src <> (dst ++ ".v07")%string -> dget String.eqb src fs = Some e -> dget String.eqb dst fs = None -> good_source C F e expected ->
  exists fs' b, stopped C src dst fs fs' /\ dmem String.eqb dst fs' = true /\ server_start C cf dst fs' = Some b /\
    db_ids (fst b) = [] /\ db_ref (fst b) = [] /\ db_latest (fst b) = [] /\ db_ts (fst b) = [].
Proof. exact final_C80_empty. Qed.
Print Assumptions C80_noticed_refuted.

(** Both kinds of sources exist; a file of version 0.6 is stopped while the last
    file is being created, with the intermediate one on the disk; *)
Example C80_good_example : codecs_ok xc anyfloat /\ good_source xc anyfloat env7 (same7 db7x) /\
  good_source xc anyfloat env6 (fun c => forall s, own ex6 s -> same6 ex6 s c).
Proof.
  split; [exact xc_ok|]. split; [left; exists db7x|right; exists ex6]; (split; [exact env7_file || exact env6_file|]); (split; [exact db7x_valid || exact ex6_valid|]);
    (split; [exact db7x_wf || exact ex6_wf|reflexivity]).
Qed.

Definition fs_old : files := [("old", env6); ("other", [])].
Definition fs_cut : files :=
  dset String.eqb "new" (opened9 3) (dset String.eqb "new.v07" (match raw_6_7 xc env6 with Some e => e | None => [] end) fs_old).

Example C80_stopped_example : stopped xc "old" "new" fs_old fs_cut /\ keys fs_cut = ["old"; "other"; "new.v07"; "new"] /\
  convert_files xc None "old" "new" fs_cut = (fs_cut, false).
Proof.
  split; [|split; vm_compute; reflexivity].
  exists env6, V6. split; [reflexivity|]. split; [reflexivity|]. split; [vm_compute; reflexivity|]. split; [discriminate|].
  destruct (raw_6_7 xc env6) as [e7|] eqn:R; [|vm_compute in R; discriminate].
  eapply (tn_next xc "old" "new" V6 "old" fs_old V7 (raw_6_7 xc) e7); [reflexivity|exact R|].
  assert (E : fs_cut = dset String.eqb "new" (opened9 3) (dset String.eqb "new.v07" e7 fs_old)) by (unfold fs_cut; now rewrite R). rewrite E.
  apply (tn_writing xc "old" "new" V7 "new.v07" (dset String.eqb "new.v07" e7 fs_old) V9 (raw_7_9 xc) (opened9 3)); [reflexivity|]. left. now exists 3%nat.
Qed.

(** after removal of its destination, the second attempt gives the same events as
    one that was not stopped. *)
Example C80_again_example :
  let again := convert_files xc None "old" "new" (ddel String.eqb "new" fs_cut) in
  snd again = true /\ keys (fst again) = ["old"; "other"; "new"] /\
  (do e <- dget String.eqb "new" (fst again); do c <- read9 xc e; Some (db_ids c, db_types c, keys (db_ts c))) =
  Some ([(1, Eid 1 3 3)], [(1, ["a"]); (2, ["b"])], [(1, Ts 1 0, Eid 1 1 1); (1, Ts 2 0, Eid 1 2 2); (1, Ts 3 0, Eid 1 3 3)]).
Proof. cbv zeta. split; [|split]; vm_compute; reflexivity. Qed.
