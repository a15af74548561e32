(** What is expected of removal of old entries from partitions (limits). *)
From Coq Require Import String Bool ZArith QArith List.
From Verif Require Import Base Model_Types Model_Subscription Model_Codec Model_Time Model_Lmdb Model_LmdbSys Spec_Lmdb Spec_LmdbContent.
Import ListNotations.
Open Scope list_scope.
Open Scope Z_scope.

(** Keys (partition, timestamp, event id) of the entries of a partition in the
    order of the database. *)
Definition entries_of (d : ldb) (p : Z) : list ts_key :=
  map fst (filter (fun kv => fst (fst (fst kv)) =? p) (db_ts d)).

Definition entry_ts (k : ts_key) : timestamp := snd (fst k).

(** By timestamp, then by id. *)
Definition older (a b : ts_key) : Prop :=
  ts_ltb (entry_ts a) (entry_ts b) = true \/
  (entry_ts a = entry_ts b /\ eid_ltb (snd a) (snd b) = true).

Definition count {A} (l : list A) : Z := Z.of_nat (List.length l).

(** The limit of the partition with number [p]: the last one of the configured
    partitions with that description counts. *)
Definition limit_in (cf : conf) (d : ldb) (p : Z) (lm : limit) : Prop :=
  exists a pt b, cf_parts cf = a ++ pt :: b /\ pt_limit pt = Some lm /\ In (p, part_data_of pt) (db_parts d) /\
    forall pt', In pt' b -> part_data_of pt' <> part_data_of pt.

Definition least (lm : limit) : Z := match lm_min lm with Some n => n | None => 0 end.

(** [n] entries, the oldest one is [k]: one of the limits is exceeded.  The
    number of entries for a size limit is estimated on [dm]. *)
Definition exceeds (O : oracle) (lm : limit) (now : timestamp) (dm : ldb) (n : Z) (k : ts_key) : Prop :=
  (exists m, lm_max lm = Some m /\ m < n) \/
  (exists z m, lm_size lm = Some z /\ or_size O z dm = Some m /\ m < n) \/
  (exists q, lm_duration lm = Some q /\ ts_ltb (entry_ts k) (ts_add now (- q)%Q) = true).

(** Entries [l] meet all limits, or there are not more of them than the least
    number (or none at all). *)
Definition meets (O : oracle) (lm : limit) (now : timestamp) (dm : ldb) (l : list ts_key) : Prop :=
  l = [] \/ count l <= least lm \/
  ((forall m, lm_max lm = Some m -> count l <= m) /\
   (forall z m, lm_size lm = Some z -> or_size O z dm = Some m -> count l <= m) /\
   (forall q k, lm_duration lm = Some q -> In k l -> ts_leb (ts_add now (- q)%Q) (entry_ts k) = true)).

(** [dm] is between [d] and [d']: a part of what is removed is removed. *)
Definition between (d dm d' : ldb) : Prop :=
  forall p, exists a b, entries_of d p = a ++ entries_of dm p /\ entries_of dm p = b ++ entries_of d' p.

(** One cleanup: [ks] is what is removed. *)
Record cleaned (O : oracle) (cf : conf) (now : timestamp) (d d' : ldb) (ks : list ts_key) : Prop := {
  cl_bound : count ks <= 1024;
  cl_removed : forall p, exists r,
      entries_of d p = r ++ entries_of d' p /\
      (forall k, In k r <-> In k ks /\ fst (fst k) = p) /\
      (r <> [] -> exists lm dm, limit_in cf d p lm /\ between d dm d' /\
         least lm <= count (entries_of d' p) /\
         forall a k b, r = a ++ k :: b -> exceeds O lm now dm (count (k :: b ++ entries_of d' p)) k);
  cl_oldest : forall k k', In k ks -> In k' (entries_of d' (fst (fst k))) -> older k k';
  cl_kept : forall k e, In (k, e) (db_ts d') <-> In (k, e) (db_ts d) /\ ~ In k ks;
  cl_done : count ks < 1024 -> forall p lm, limit_in cf d p lm ->
      exists dm, between d dm d' /\ meets O lm now dm (entries_of d' p) }.

(** Work waiting for the worker thread, first come first served; for a cleanup
    its time. *)
Definition waiting_step (l : list (option timestamp)) (x : op * out) : list (option timestamp) :=
  match x with
  | (OFlush, _) => l ++ [None]
  | (OCleanup now, _) => l ++ [Some now]
  | (OServer _ _, Quiet) | (OTs _ _, Quiet) => l ++ [None]
  | (OWork, _) => tl l
  | (OReopen _, _) => []
  | _ => l
  end.
Definition waiting (tr : list (op * out)) : list (option timestamp) := fold_left waiting_step tr [].

(** Cleanups one after another. *)
Definition passes (l : list (timestamp * list ts_key)) : list (op * out) :=
  flat_map (fun x => [(OCleanup (fst x), Quiet); (OWork, Cleaned (snd x))]) l.

(** Anything but asking for a cleanup, doing one and a restart. *)
Definition tame (x : op * out) : Prop :=
  match x with (OCleanup _, _) | (OWork, Cleaned _) | (OReopen _, _) => False | _ => True end.

(** Steps of the backend among what happens to the cleanup loop. *)
Definition somes {A} (l : list (option A)) : list A := flat_map (fun x => match x with Some y => [y] | None => [] end) l.
