(** A conversion of LMDB files that stops before its end: the tool is killed, the
    machine goes down, or something raises.  Models what
    src_py/hat/event/backends/lmdb/convert/main.py:52-83 leaves on the disk.

    A write transaction is written as a whole or not at all
    (convert_v07_to_v09.py:16-21 uses one; opening of a database is one).
    convert_v06_to_v07.py uses one for each entry; what it leaves is arbitrary
    here.  Locks of LMDB are not modelled. *)
From Coq Require Import String Bool ZArith List.
From Verif Require Import Base Kv Model_Types Model_Codec Model_Sbs Model_Lmdb Model_Convert Model_ConvertBytes.
Import ListNotations.
Open Scope string_scope.
Open Scope list_scope.

Section Cut.
  Variable C : codecs.

  (** convert_v07_to_v09.py:13-14: the first [k] databases are opened. *)
  Definition opened9 (k : nat) : env := fold_left (fun e n => eopen n e) (firstn k names9) [].

  (** What the destination may hold while the conversion [f] to version [v] of
      the content [e] goes on. *)
  Definition written (v : version) (f : env -> option env) (e l : env) : Prop :=
    match v with
    | V9 => (exists k, l = opened9 k) \/ f e = Some l
    | _ => True
    end.

  (** main.py:67-72 *)
  Definition target (v : version) (dst : string) : string := if is_v9 v then dst else (dst ++ suffix v)%string.

  Definition content_of (p : string) (fs : files) : env := match dget String.eqb p fs with Some e => e | None => [] end.
  (** [lmdb.Environment] creates a file that does not exist. *)
  Definition touch (p : string) (fs : files) : files := if dmem String.eqb p fs then fs else dset String.eqb p [] fs.

  (** main.py:59-83: [turning src0 dst v src fs fs']: with the source [src] of
      version [v] and the files [fs], the loop stops with the files [fs']. *)
  Inductive turning (src0 dst : string) : version -> string -> files -> files -> Prop :=
  | tn_now : forall v src fs, turning src0 dst v src fs fs
  | tn_unlinked : forall v src fs v' f, next_version C v = Some (v', f) ->      (* lines 74-75 *)
      turning src0 dst v src fs (ddel String.eqb (target v' dst) fs)
  | tn_writing : forall v src fs v' f l, next_version C v = Some (v', f) ->     (* line 77 *)
      let fs1 := ddel String.eqb (target v' dst) fs in
      written v' f (content_of src fs1) l ->
      turning src0 dst v src fs (dset String.eqb (target v' dst) l (touch src fs1))
  | tn_written : forall v src fs v' f e, next_version C v = Some (v', f) ->
      let fs1 := ddel String.eqb (target v' dst) fs in
      f (content_of src fs1) = Some e ->
      turning src0 dst v src fs (dset String.eqb (target v' dst) e fs1)
  | tn_next : forall v src fs v' f e fs', next_version C v = Some (v', f) ->    (* lines 78-83 *)
      let fs1 := ddel String.eqb (target v' dst) fs in
      f (content_of src fs1) = Some e ->
      let fs2 := dset String.eqb (target v' dst) e fs1 in
      turning src0 dst v' (target v' dst) (if (src =? src0)%string then fs2 else ddel String.eqb src fs2) fs' ->
      turning src0 dst v src fs fs'.

  (** main.py:36-57: the tool was started, paths and version were found good. *)
  Definition stopped (src dst : string) (fs fs' : files) : Prop :=
    exists e v, dget String.eqb src fs = Some e /\ dmem String.eqb dst fs = false /\ get_version C e = Some v /\ v <> V9 /\
                turning src dst v src fs fs'.

  (** common.py:157-161: [ext_open_db] with [create=False] raises if there is no
      such database. *)
  Definition openable (e : env) : bool := forallb (fun n => ehas n e) names9.

  (** environment.py:92-100 [_ext_init], then backend.py:27-78 [create]: a server
      is started; [None]: it raises.  Databases are created only if there was no
      file. *)
  Definition server_start (cf : conf) (p : string) (fs : files) : option (ldb * mem) :=
    match dget String.eqb p fs with
    | None => open_db cf empty_db
    | Some e => if openable e then do d <- read9 C e; open_db cf d else None
    end.
End Cut.
