(** Model of storage/kv/kv.go (the ordered key-value store interface) and of
    storage/kv/leveldbkv/leveldbkv.go (its implementation over LevelDB).

    The wrapper is modelled function by function.  LevelDB itself is a
    library outside /repo; what is written down here is its write path at the
    level of its own documentation: a write appends one checksummed record
    holding the whole batch to the journal, forces the journal to the disk
    when [WriteOptions.Sync] is set, and then makes the batch visible; one
    writer at a time; opening the store replays the records found on the disk,
    in order, ignoring a record that was not written completely.  When forcing
    the journal fails the store accepts no more writes until it is reopened
    (whether that record will be found then is open). *)
From Coq Require Import List NArith Lia Bool Arith.
From Verif Require Import Base Storage.
Import ListNotations.

(** * Batches *)

(** One entry of a batch (storage/kv/kv.go:43-45, Put and Delete). *)
Inductive bop := BPut (k v : bytes) | BDel (k : bytes).
(** The contents of a [leveldb.Batch]: its entries, oldest first. *)
(** LevelDB, called at storage/kv/leveldbkv/leveldbkv.go:29-80 *)
Definition batch := list bop.

(** storage/kv/kv.go:41-45: a value of the interface type [kv.Batch]:
    either the [*leveldb.Batch] of leveldbkv.go:55-57 or some other type. *)
Inductive Batch := LevelBatch (ops : batch) | OtherBatch (type_name : bytes).

(** storage/kv/leveldbkv/leveldbkv.go:55-57: [new(leveldb.Batch)]. *)
Definition NewBatch : Batch := LevelBatch [].

(** The three methods of a batch (storage/kv/kv.go:42-44), for
    [*leveldb.Batch]: Put and Delete append a record, Reset drops all.  (The
    methods of other implementations are not in /repo.) *)
Inductive bcall := CReset | CPut (k v : bytes) | CDelete (k : bytes).
(** storage/kv/kv.go:42-44, one method call *)
Definition batch_call (b : Batch) (c : bcall) : Batch :=
  match b with
  | LevelBatch ops =>
      match c with
      | CReset => LevelBatch []
      | CPut k v => LevelBatch (ops ++ [BPut k v])
      | CDelete k => LevelBatch (ops ++ [BDel k])
      end
  | OtherBatch n => OtherBatch n
  end.

(** * Contents *)

(** LevelDB's key order, [bytes.Compare(a, b) < 0]. *)
(** LevelDB, called at storage/kv/leveldbkv/leveldbkv.go:29-80 *)
Fixpoint lexb (a b : bytes) : bool :=
  match a, b with
  | [], [] => false
  | [], _ :: _ => true
  | _ :: _, [] => false
  | x :: a', y :: b' =>
      if N.ltb (Byte.to_N x) (Byte.to_N y) then true
      else if N.eqb (Byte.to_N x) (Byte.to_N y) then lexb a' b' else false
  end.

(** The visible contents: entries in key order. *)
(** LevelDB, called at storage/kv/leveldbkv/leveldbkv.go:29-80 *)
Definition contents := list (bytes * bytes).

(** LevelDB, putting one entry into its ordered table. *)
(** LevelDB, called at storage/kv/leveldbkv/leveldbkv.go:29-80 *)
Fixpoint put (k v : bytes) (m : contents) : contents :=
  match m with
  | [] => [(k, v)]
  | (k', v') :: r =>
      if lexb k k' then (k, v) :: m
      else if beq k k' then (k, v) :: r
      else (k', v') :: put k v r
  end.
(** LevelDB, deleting one key. *)
(** LevelDB, called at storage/kv/leveldbkv/leveldbkv.go:29-80 *)
Fixpoint del (k : bytes) (m : contents) : contents :=
  match m with
  | [] => []
  | (k', v') :: r => if beq k k' then r else (k', v') :: del k r
  end.
(** LevelDB, applying the entries of a batch in order. *)
(** LevelDB, called at storage/kv/leveldbkv/leveldbkv.go:29-80 *)
Definition apply_op (m : contents) (o : bop) : contents :=
  match o with BPut k v => put k v m | BDel k => del k m end.
(** the whole batch *)
(** LevelDB, called at storage/kv/leveldbkv/leveldbkv.go:29-80 *)
Definition apply_batch (m : contents) (b : batch) : contents := fold_left apply_op b m.
(** LevelDB, opening: replaying the journal. *)
(** LevelDB, called at storage/kv/leveldbkv/leveldbkv.go:29-80 *)
Definition replay (l : list batch) : contents := fold_left apply_batch l [].
(** LevelDB, looking a key up: [None] is [leveldb.ErrNotFound]. *)
(** LevelDB, called at storage/kv/leveldbkv/leveldbkv.go:29-80 *)
Fixpoint lookup (k : bytes) (m : contents) : option bytes :=
  match m with
  | [] => None
  | (k', v) :: r => if beq k k' then Some v else lookup k r
  end.

(** * The writing calls of the wrapper *)

(** Steps of LevelDB's write path. *)
(** LevelDB, called at storage/kv/leveldbkv/leveldbkv.go:29-80 *)
Inductive prim :=
| PAppend (b : batch)     (* append the record to the journal (OS buffer) *)
| PSync                   (* force the journal to the disk *)
| PApply (b : batch)      (* make the batch visible *)
| PErr.                   (* return an error *)

(** [leveldb.DB.Write] with [WriteOptions{Sync: sync}]; its [Put] and
    [Delete] are writes of one-entry batches. *)
(** LevelDB, called at storage/kv/leveldbkv/leveldbkv.go:29-80 *)
Definition leveldb_write (b : batch) (sync : bool) : list prim :=
  PAppend b :: (if sync then [PSync] else []) ++ [PApply b].

(** The writing methods of [kv.DB] (storage/kv/kv.go:30-33). *)
Inductive wcall := KPut (k v : bytes) | KDelete (k : bytes) | KWrite (b : Batch).

(** storage/kv/leveldbkv/leveldbkv.go:47-49 (Put), :51-53 (Delete),
    :59-65 (Write, with its type assertion). *)
Definition wrapper (c : wcall) : list prim :=
  match c with
  | KPut k v => leveldb_write [BPut k v] true
  | KDelete k => leveldb_write [BDel k] true
  | KWrite (LevelBatch ops) => leveldb_write ops true
  | KWrite (OtherBatch _) => [PErr]
  end.

(** * Iterators *)

(** storage/kv/leveldbkv/leveldbkv.go:67-72: a nil range is passed on as nil;
    otherwise Start and Limit are copied into LevelDB's own range type. *)
Definition leveldb_range (rg : option Range) : option (bytes * option bytes) :=
  match rg with
  | None => None
  | Some r => Some (rg_start r, rg_limit r)
  end.
(** LevelDB's [util.Range] test: Start included, Limit excluded, nil limit
    means no limit. *)
(** LevelDB, called at storage/kv/leveldbkv/leveldbkv.go:29-80 *)
Definition in_slice (s : option (bytes * option bytes)) (k : bytes) : bool :=
  match s with
  | None => true
  | Some (start, limit) =>
      negb (lexb k start) &&
      match limit with None => true | Some l => lexb k l end
  end.

(** An iterator (storage/kv/kv.go:50-58): the entries it ranges over, fixed
    when it was made, and where it stands. *)
Inductive cursor := AtStart | At (i : nat) | AtEnd | Released.
(** storage/kv/kv.go:50-58, the iterator's state *)
Record Iterator := mkIter { it_items : contents; it_pos : cursor }.

(** storage/kv/leveldbkv/leveldbkv.go:67-72, on the contents of the moment. *)
Definition NewIterator (m : contents) (rg : option Range) : Iterator :=
  mkIter (filter (fun e => in_slice (leveldb_range rg) (fst e)) m) AtStart.

(** LevelDB's iterator, going to position [i]. *)
(** LevelDB, called at storage/kv/leveldbkv/leveldbkv.go:29-80 *)
Definition goto (it : Iterator) (i : nat) : Iterator * bool :=
  if Nat.ltb i (length (it_items it)) then (mkIter (it_items it) (At i), true)
  else (mkIter (it_items it) AtEnd, false).
(** storage/kv/kv.go:53 *)
Definition First (it : Iterator) : Iterator * bool :=
  match it_pos it with Released => (it, false) | _ => goto it 0 end.
(** storage/kv/kv.go:54 *)
Definition Next (it : Iterator) : Iterator * bool :=
  match it_pos it with
  | Released => (it, false)
  | AtStart => goto it 0
  | At i => goto it (S i)
  | AtEnd => (it, false)
  end.
(** storage/kv/kv.go:55 *)
Definition Last (it : Iterator) : Iterator * bool :=
  match it_pos it with
  | Released => (it, false)
  | _ =>
      match length (it_items it) with
      | O => (mkIter (it_items it) AtStart, false)
      | S i => (mkIter (it_items it) (At i), true)
      end
  end.
(** storage/kv/kv.go:56 *)
Definition Release (it : Iterator) : Iterator := mkIter (it_items it) Released.
(** storage/kv/kv.go:51 and :52, Key and Value together; nil off the entries. *)
Definition Current (it : Iterator) : option (bytes * bytes) :=
  match it_pos it with At i => nth_error (it_items it) i | _ => None end.

(** The usual loop [for ok := it.First(); ok; ok = it.Next()], collecting
    Key() and Value(); [fuel] bounds the number of rounds. *)
(** a user of storage/kv/kv.go:50-58 *)
Fixpoint scan_from (fuel : nat) (st : Iterator * bool) : contents :=
  match fuel with
  | O => []
  | S f =>
      if snd st then
        match Current (fst st) with
        | Some e => e :: scan_from f (Next (fst st))
        | None => []
        end
      else []
  end.
(** the loop from the start *)
(** a user of storage/kv/kv.go:50-58 *)
Definition scan (fuel : nat) (it : Iterator) : contents := scan_from fuel (First it).

(** * The store in use: concurrent calls, crashes, restarts *)

(** What one can see of the store from outside, and ([ELin]) the moment at
    which a write takes effect, which one cannot see. *)
(** executions of storage/kv/leveldbkv/leveldbkv.go:29-80 with crashes *)
Inductive event :=
| EInvoke (id : nat) (c : wcall)                (* a writing call starts *)
| EReturn (id : nat) (ok : bool)                (* ... returns: nil error or not *)
| EGet (k : bytes) (r : option bytes)           (* Get(k); None: ErrNotFound *)
| EIter (rg : option Range) (it : Iterator)     (* NewIterator(rg) *)
| ERestart                                      (* the process or machine went down
                                                   and the store was opened again *)
| ELin (id : nat) (b : batch).

(** The store: records on the disk, records in the operating system's buffers,
    visible contents, whether writes are refused, the calls in progress with
    what is left of them, who holds the write lock, identifiers used. *)
(** executions of storage/kv/leveldbkv/leveldbkv.go:29-80 with crashes *)
Record db := mkdb {
  d_disk : list batch; d_buf : list batch; d_mem : contents; d_broken : bool;
  d_pend : list (nat * list prim); d_holder : option nat; d_used : list nat }.

(** A fresh store. *)
(** executions of storage/kv/leveldbkv/leveldbkv.go:29-80 with crashes *)
Definition empty_db : db := mkdb [] [] [] false [] None [].

(** Replacing what is left of a call. *)
(** executions of storage/kv/leveldbkv/leveldbkv.go:29-80 with crashes *)
Definition advance (id : nat) (ps : list prim) (l : list (nat * list prim)) :=
  map (fun e => if Nat.eqb (fst e) id then (id, ps) else e) l.
(** Forgetting a call. *)
(** executions of storage/kv/leveldbkv/leveldbkv.go:29-80 with crashes *)
Definition finish (id : nat) (l : list (nat * list prim)) :=
  filter (fun e => negb (Nat.eqb (fst e) id)) l.
(** Releasing the lock if one holds it. *)
(** executions of storage/kv/leveldbkv/leveldbkv.go:29-80 with crashes *)
Definition release (id : nat) (h : option nat) : option nat :=
  match h with Some j => if Nat.eqb j id then None else h | None => None end.

(** One step, with what it shows to the outside. *)
(** executions of storage/kv/leveldbkv/leveldbkv.go:29-80 with crashes *)
Inductive step : db -> list event -> db -> Prop :=
(** a call enters the wrapper *)
| s_invoke s id c : ~ In id (d_used s) ->
    step s [EInvoke id c]
      (mkdb (d_disk s) (d_buf s) (d_mem s) (d_broken s)
            ((id, wrapper c) :: d_pend s) (d_holder s) (id :: d_used s))
| s_append s id b ps : In (id, PAppend b :: ps) (d_pend s) ->
    d_holder s = None -> d_broken s = false ->
    step s []
      (mkdb (d_disk s) (d_buf s ++ [b]) (d_mem s) false
            (advance id ps (d_pend s)) (Some id) (d_used s))
| s_append_fails s id b ps : In (id, PAppend b :: ps) (d_pend s) ->
    step s [EReturn id false]
      (mkdb (d_disk s) (d_buf s) (d_mem s) (d_broken s)
            (finish id (d_pend s)) (d_holder s) (d_used s))
| s_sync s id ps : In (id, PSync :: ps) (d_pend s) ->
    step s []
      (mkdb (d_disk s ++ d_buf s) [] (d_mem s) (d_broken s)
            (advance id ps (d_pend s)) (d_holder s) (d_used s))
| s_sync_fails s id ps : In (id, PSync :: ps) (d_pend s) ->
    step s [EReturn id false]
      (mkdb (d_disk s) (d_buf s) (d_mem s) true
            (finish id (d_pend s)) (release id (d_holder s)) (d_used s))
| s_apply s id b ps : In (id, PApply b :: ps) (d_pend s) ->
    step s []
      (mkdb (d_disk s) (d_buf s) (apply_batch (d_mem s) b) (d_broken s)
            (advance id ps (d_pend s)) (d_holder s) (d_used s))
| s_return s id : In (id, []) (d_pend s) ->
    step s [EReturn id true]
      (mkdb (d_disk s) (d_buf s) (d_mem s) (d_broken s)
            (finish id (d_pend s)) (release id (d_holder s)) (d_used s))
| s_error s id ps : In (id, PErr :: ps) (d_pend s) ->
    step s [EReturn id false]
      (mkdb (d_disk s) (d_buf s) (d_mem s) (d_broken s)
            (finish id (d_pend s)) (d_holder s) (d_used s))
(** storage/kv/leveldbkv/leveldbkv.go:43-45 *)
| s_get s k : step s [EGet k (lookup k (d_mem s))] s
(** storage/kv/leveldbkv/leveldbkv.go:67-72 *)
| s_iter s rg : step s [EIter rg (NewIterator (d_mem s) rg)] s
(** the operating system writes part of its buffers whenever it likes *)
| s_flush s n :
    step s []
      (mkdb (d_disk s ++ firstn n (d_buf s)) (skipn n (d_buf s)) (d_mem s) (d_broken s)
            (d_pend s) (d_holder s) (d_used s))
(** everything stops; part of the buffers may still reach the disk; then
    leveldbkv.go:29-36 (OpenDB) replays what is on the disk *)
| s_restart s n :
    step s [ERestart]
      (mkdb (d_disk s ++ firstn n (d_buf s)) []
            (replay (d_disk s ++ firstn n (d_buf s))) false [] None (d_used s)).

(** Executions, with everything seen from the outside, oldest first. *)
(** executions of storage/kv/leveldbkv/leveldbkv.go:29-80 with crashes *)
Inductive run : db -> list event -> db -> Prop :=
| run_nil s : run s [] s
| run_snoc s tr s' e s'' : run s tr s' -> step s' e s'' -> run s (tr ++ e) s''.
