(** The Merkle prefix tree of CONIKS, as a document would define it: the hash
    at every position is a function of the set of entries, with no tree, no
    insertion and no cache.  Written without the model's own helpers; only the
    hash function [shake] is shared.  (Compare merkletree/merkletree.go:1-30,
    merkletree/node.go:78-105, and section 3.1 of the CONIKS paper.) *)
From Coq Require Import List NArith Lia Bool Arith.
From Verif Require Import Base Crypto.
Import ListNotations.

(** The bits of a byte string, the highest bit of each byte first. *)
Definition bits_of (i : bytes) : list bool :=
  flat_map (fun b => map (N.testbit (Byte.to_N b)) [7; 6; 5; 4; 3; 2; 1; 0]%N) i.
(** A sequence of bits as bytes, filled up with zeros at the end. *)
Definition byte_value (bits : list bool) : N := fold_left (fun n b => (2 * n + N.b2n b)%N) bits 0%N.
Fixpoint pack_n (n : nat) (bits : list bool) : bytes :=
  match n with
  | O => []
  | S n' => b8 (byte_value (firstn 8 (bits ++ repeat false 8))) :: pack_n n' (skipn 8 bits)
  end.
Definition pack (bits : list bool) : bytes := pack_n ((length bits + 7) / 8) bits.
(** A number below 2^32 as four bytes, the lowest first. *)
Definition le32 (n : nat) : bytes :=
  let n := N.of_nat n in [b8 n; b8 (n / 256); b8 (n / 65536); b8 (n / 16777216)].

Section Mpt.
  Context {C : Crypto}.
  (** An entry: the index and the commitment stored there. *)
  Variables (nb : nat) (nonce : bytes) (L : list (bytes * bytes)).

  Definition starts (pre : list bool) (e : bytes * bytes) : bool :=
    if list_eq_dec Bool.bool_dec (firstn (length pre) (bits_of (fst e))) pre then true else false.
  (** The entries below a position. *)
  Definition under (pre : list bool) : list (bytes * bytes) := filter (starts pre) L.

  (** The hash at a position: no entry, one entry, or more. *)
  Definition empty_hash (pre : list bool) : bytes := shake ([x45] ++ nonce ++ pack pre ++ le32 (length pre)).
  Definition leaf_hash (pre : list bool) (e : bytes * bytes) : bytes :=
    shake ([x4c] ++ nonce ++ fst e ++ le32 (length pre) ++ snd e).
  Fixpoint hash_below (height : nat) (pre : list bool) : bytes :=
    match under pre with
    | [] => empty_hash pre
    | [e] => leaf_hash pre e
    | _ => match height with
           | O => []
           | S h => shake (hash_below h (pre ++ [false]) ++ hash_below h (pre ++ [true]))
           end
    end.
  (** [nb] is the length of the indices in bytes. *)
  Definition hash_at (pre : list bool) : bytes := hash_below (8 * nb - length pre) pre.
  (** The root is always an interior node. *)
  Definition mpt_root : bytes := shake (hash_at [false] ++ hash_at [true]).

  (** Where the search for [i] ends: at the first position of [i]'s path, below
      the root, with at most one entry. *)
  Definition ends_at (i : bytes) (d : nat) : Prop :=
    1 <= d /\ length (under (firstn d (bits_of i))) <= 1 /\
    forall d', 1 <= d' -> d' < d -> 2 <= length (under (firstn d' (bits_of i))).
  (** The position beside the [j]-th step of [i]'s path. *)
  Definition beside_path (i : bytes) (j : nat) : list bool :=
    firstn j (bits_of i) ++ [negb (nth j (bits_of i) false)].
End Mpt.
