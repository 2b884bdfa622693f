(** Model of storage/kv/range.go (key ranges) and utils/utils.go:44-55
    (WriteFile), the two places where coniks-go deals with stored data. *)
From Coq Require Import List NArith ZArith Lia Bool Arith.
From Verif Require Import Base.
Import ListNotations.

(** * Key ranges *)

(** storage/kv/range.go:45-51.  [None] is the nil limit, "no limit". *)
Record Range := mkRange { rg_start : bytes; rg_limit : option bytes }.

(** storage/kv/range.go:57-65, the loop of [IncrementKey] for
    [i = n-1, ..., 0].  [copy] into a slice of [i+1] bytes keeps the first
    [i+1] bytes of the prefix; the last of them is then replaced by [c+1]. *)
Fixpoint IncrementKey_loop (prefix : bytes) (n : nat) : option bytes :=
  match n with
  | O => None
  | S i =>
      match nth_error prefix i with
      | None => None
      | Some c =>
          if N.ltb (Byte.to_N c) 255
          then Some (firstn i prefix ++ [b8 (Byte.to_N c + 1)])
          else IncrementKey_loop prefix i
      end
  end.
(** storage/kv/range.go:56-67 *)
Definition IncrementKey (prefix : bytes) : option bytes :=
  IncrementKey_loop prefix (length prefix).

(** storage/kv/range.go:70-72 *)
Definition BytesPrefix (prefix : bytes) : Range := mkRange prefix (IncrementKey prefix).

(** * Writing a file *)

(** A file system: a partial map from paths to contents.  Directories,
    permissions and links are not modelled. *)
(** the file system under utils/utils.go:45-55 *)
Definition fs := bytes -> option bytes.
(** the file system under utils/utils.go:45-55 *)
Definition fs_set (f : fs) (p : bytes) (v : option bytes) : fs :=
  fun q => if beq q p then v else f q.

(** Control points of [utils.WriteFile] (utils/utils.go:45-55):
    before [os.Stat]; after it, before the [os.OpenFile(O_WRONLY|O_CREATE|
    O_TRUNC)] inside [ioutil.WriteFile]; writing with [n] bytes done;
    returned ([true]: nil error). *)
Inductive wpc := WStat | WOpen | WWriting (n : nat) | WReturned (ok : bool).

(** One step of a call [WriteFile(name, buf, _)].  The system may make [Stat]
    fail on an existing file for reasons of its own, and may make the opening
    or the writing fail. *)
(** utils/utils.go:45-55 *)
Inductive wstep (name buf : bytes) : wpc * fs -> wpc * fs -> Prop :=
| w_stat_exists f v : f name = Some v ->
    wstep name buf (WStat, f) (WReturned false, f)        (* :46-49 *)
| w_stat_absent f : f name = None ->
    wstep name buf (WStat, f) (WOpen, f)                  (* :46, err != nil *)
| w_open f :
    wstep name buf (WOpen, f) (WWriting 0, fs_set f name (Some []))  (* :51 *)
| w_open_fail f :
    wstep name buf (WOpen, f) (WReturned false, f)        (* :51-53 *)
| w_write f n m v : n <= m -> m <= length buf -> f name = Some v ->
    wstep name buf (WWriting n, f)
          (WWriting m, fs_set f name (Some (firstn m buf)))
| w_write_fail f n :
    wstep name buf (WWriting n, f) (WReturned false, f)
| w_done f : 
    wstep name buf (WWriting (length buf), f) (WReturned true, f). (* :54 *)

(** [os.Stat] failing on an existing file (I/O error): [err == nil] is false
    at utils.go:46, so the call goes on to write. *)
Inductive wstep_staterr (name buf : bytes) : wpc * fs -> wpc * fs -> Prop :=
| w_stat_error f : wstep_staterr name buf (WStat, f) (WOpen, f).
