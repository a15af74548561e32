(** Copying of files of LMDB databases.  Models
    src_py/hat/event/backends/lmdb/manager/copy.py with the bytes that are read
    and written, the exceptions, and what is left by a copy that stops before its
    end.

    Opening an environment [readonly] raises if there is no file; otherwise it
    creates a file that does not exist.  The write transaction of copy.py:28 is
    written as a whole or not at all, and so is each opening of a database.  Lock
    files of LMDB are not modelled. *)
From Coq Require Import String Bool ZArith List.
From Verif Require Import Base Kv Model_Types Model_Codec Keys Model_Sbs Model_Lmdb Model_Copy Model_ConvertBytes Model_ConvertCut.
Import ListNotations.
Open Scope string_scope.
Open Scope list_scope.

Section Copy.
  Variable C : codecs.
  Variables (sl st : bool).        (** [--skip-latest], [--skip-timeseries] *)

  (** copy.py:90-92 [_copy_db] *)
  Definition raw_copy_db (src : env) (e : env) (name : string) : env :=
    fold_left (fun e kv => eput name (fst kv) (snd kv) e) (eitems name src) e.

  (** copy.py:52-74: an entry of [_copy_ref]. *)
  Definition raw_copy_ref (e : env) (kv : bytes * bytes) : option env :=
    if negb sl && negb st then Some (eput "REF" (fst kv) (snd kv) e)
    else
      do rs <- decode_event_refs (snd kv);
      match kept_refs sl st rs with
      | [] => Some e
      | refs => do v <- encode_event_refs (iter C refs); Some (eput "REF" (fst kv) v e)
      end.

  (** copy.py:27-37, 40-44, 77-87: the transactions. *)
  Definition raw_copy (src : env) : option env :=
    let e := fold_left (raw_copy_db src) ["SYSTEM_SETTINGS"; "SYSTEM_LAST_EVENT_ID"; "SYSTEM_LAST_TIMESTAMP"] (opened9 9) in
    do e <- loop raw_copy_ref (eitems "REF" src) e;
    let e := if sl then e else fold_left (raw_copy_db src) ["LATEST_DATA"; "LATEST_TYPE"] e in
    Some (if st then e else fold_left (raw_copy_db src) ["TIMESERIES_DATA"; "TIMESERIES_PARTITION"; "TIMESERIES_COUNT"] e).

  (** copy.py:16-37 [copy]: files afterwards; [false]: an exception. *)
  Definition copy_files (src dst : string) (fs : files) : files * bool :=
    if dmem String.eqb dst fs then (fs, false) else
    match dget String.eqb src fs with
    | None => (fs, false)
    | Some e =>
        if openable e then
          match raw_copy e with
          | Some l => (dset String.eqb dst l fs, true)
          | None => (dset String.eqb dst (opened9 9) fs, false)
          end
        else (dset String.eqb dst (opened9 0) fs, false)
    end.

  (** What is on the disk if the tool stops somewhere: it is killed, the machine
      goes down, or something raises. *)
  Inductive copy_stopped (src dst : string) (fs : files) : files -> Prop :=
  | cs_before : copy_stopped src dst fs fs                                                      (* lines 17-20 *)
  | cs_created : forall e, dmem String.eqb dst fs = false -> dget String.eqb src fs = Some e ->  (* lines 21-23 *)
      copy_stopped src dst fs (dset String.eqb dst (opened9 0) fs)
  | cs_opened : forall e k, dmem String.eqb dst fs = false -> dget String.eqb src fs = Some e -> openable e = true ->
      copy_stopped src dst fs (dset String.eqb dst (opened9 k) fs)                               (* lines 24-37 *)
  | cs_written : forall e l, dmem String.eqb dst fs = false -> dget String.eqb src fs = Some e -> openable e = true -> raw_copy e = Some l ->
      copy_stopped src dst fs (dset String.eqb dst l fs).
End Copy.
