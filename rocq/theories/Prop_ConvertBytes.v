(** C68: converting files of former versions. *)
From Coq Require Import String Bool ZArith Lia List.
From Verif Require Import Base Kv Model_Types Model_Codec Keys Model_Sbs Model_Lmdb Model_Convert Spec_Convert Model_ConvertBytes Spec_ConvertBytes Proof_ConvertBytes4
  Ex_Convert Ex_ConvertBytes.
Import ListNotations.
Open Scope string_scope.
Open Scope list_scope.
Open Scope Z_scope.

(** C68.  A file of version 0.7, whatever the libraries for JSON and SBS and the
    order of iteration of sets, is recognised and converted: the new file is of
    version 0.9 and everything is read from it; no other file changes. *)
Theorem C68_v07 : forall C F, codecs_ok C F -> forall left src dst fs e d,
  dget String.eqb src fs = Some e -> dget String.eqb dst fs = None -> file7 C F e d -> valid7 d -> wf7 F d ->
  exists fs' e' c, get_version C e = Some V7 /\ convert_files C left src dst fs = (fs', true) /\ dget String.eqb dst fs' = Some e' /\
    read9 C e' = Some c /\ same7 d c /\ convert (V07 d) = Some c /\ get_version C e' = Some V9 /\
    forall p, p <> dst -> dget String.eqb p fs' = dget String.eqb p fs.
Proof. exact final_C68_v07. Qed.
Print Assumptions C68_v07.

(** C68.  So is a file of version 0.6; the intermediate file is removed. *)
Theorem C68_v06_partial : forall C F, codecs_ok C F -> forall left src dst fs e d,
  NoDup (keys fs) -> src <> (dst ++ ".v07")%string ->
  dget String.eqb src fs = Some e -> dget String.eqb dst fs = None -> file6 C F e d -> valid6 d -> wf6 F d ->
  exists fs' e' c, get_version C e = Some V6 /\ convert_files C left src dst fs = (fs', true) /\ dget String.eqb dst fs' = Some e' /\
    read9 C e' = Some c /\ (forall s, own d s -> same6 d s c) /\ convert (V06 d) = Some c /\ get_version C e' = Some V9 /\
    dget String.eqb (dst ++ ".v07")%string fs' = None /\
    forall p, p <> dst -> p <> (dst ++ ".v07")%string -> dget String.eqb p fs' = dget String.eqb p fs.
Proof. exact final_C68_v06. Qed.
Print Assumptions C68_v06_partial.

(** C68.  Whatever is in the files, and whatever a failed conversion leaves in its
    destination: only the destination and the intermediate file are touched, *)
Theorem C68_others : forall C left src dst fs p, p <> dst -> p <> (dst ++ ".v07")%string ->
  dget String.eqb p (fst (convert_files C left src dst fs)) = dget String.eqb p fs.
Proof. exact final_C68_others. Qed.
Print Assumptions C68_others.

(** so the source is as it was, unless it has the name of the intermediate file. *)
Theorem C68_source_partial : forall C left src dst fs, src <> (dst ++ ".v07")%string ->
  dget String.eqb src (fst (convert_files C left src dst fs)) = dget String.eqb src fs.
Proof. exact final_C68_source. Qed.
Print Assumptions C68_source_partial.

(** C68.  Nothing changes if there is no source, if the destination exists, or if
    the source is of the new or of an unknown version. *)
Theorem C68_nothing : forall C left src dst fs,
  (dget String.eqb src fs = None \/ dget String.eqb dst fs <> None \/
   (exists e, dget String.eqb src fs = Some e /\ (get_version C e = None \/ get_version C e = Some V9))) ->
  convert_files C left src dst fs = (fs, false).
Proof. exact final_C68_refused. Qed.
Print Assumptions C68_nothing.

(** C68.  A source of version 0.6 that has the name of the intermediate file is
    deleted before it is read: the conversion fails, its content is lost. *)
Theorem C68_refuted : forall C src dst fs e, NoDup (keys fs) -> src = (dst ++ ".v07")%string ->
  dget String.eqb src fs = Some e -> dget String.eqb dst fs = None -> get_version C e = Some V6 ->
  exists fs', convert_files C None src dst fs = (fs', false) /\ dget String.eqb src fs' = Some [].
Proof. exact final_C68_refuted. Qed.
Print Assumptions C68_refuted.

(** Hypotheses hold for concrete files; latest event ids are as expected. *)
Example C68_v07_example : codecs_ok xc anyfloat /\ file7 xc anyfloat env7 db7x /\ valid7 db7x /\ wf7 anyfloat db7x /\
  (do e <- dget String.eqb "new" (fst (convert_files xc None "old" "new" [("old", env7)])); do c <- read9 xc e; Some (db_ids c, db_ref c, List.length (db_ts c))) =
  Some ([(1, Eid 1 2 4)],
        [(Eid 1 2 3, [LatestRef 1; TimeseriesRef (2, Ts 10 20, Eid 1 2 3)]); (Eid 1 2 4, [TimeseriesRef (2, Ts (-5) 0, Eid 1 2 4)])], 2%nat).
Proof. split; [exact xc_ok|]. split; [exact env7_file|]. split; [exact db7x_valid|]. split; [exact db7x_wf|]. vm_compute. reflexivity. Qed.

Example C68_v06_example : file6 xc anyfloat env6 ex6 /\ valid6 ex6 /\ wf6 anyfloat ex6 /\
  keys (fst (convert_files xc None "old" "new" [("old", env6); ("other", [])])) = ["old"; "other"; "new"] /\
  (do e <- dget String.eqb "new" (fst (convert_files xc None "old" "new" [("old", env6); ("other", [])])); do c <- read9 xc e; Some (db_ids c, db_types c, keys (db_ts c))) =
  Some ([(1, Eid 1 3 3)], [(1, ["a"]); (2, ["b"])], [(1, Ts 1 0, Eid 1 1 1); (1, Ts 2 0, Eid 1 2 2); (1, Ts 3 0, Eid 1 3 3)]).
Proof. split; [exact env6_file|]. split; [exact ex6_valid|]. split; [exact ex6_wf|]. split; vm_compute; reflexivity. Qed.

Example C68_refuted_example : get_version xc env6 = Some V6 /\
  convert_files xc None "new.v07" "new" [("new.v07", env6)] = ([("new.v07", [])], false).
Proof. split; vm_compute; reflexivity. Qed.
