(** Specification vocabulary for the tree: histories of operations, and what a
    user expects to be stored after a history.  Nothing here refers to nodes. *)
From Coq Require Import List NArith Lia Bool Arith.
From Verif Require Import Base Utils Crypto Tree.
Import ListNotations.

Section Spec.
  Context {C : Crypto}.

  (** An operation on a tree: [Set] (with the entropy the commitment will
      draw), or a recomputation of the root hash. *)
  Inductive tree_op :=
  | TSet (r : option bytes) (idx key value : bytes)
  | TRehash.

  Definition tree_step (m : MerkleTree) (op : tree_op) : result MerkleTree :=
    match op with
    | TSet r idx key value =>
        do o <- Set_ m r idx key value;
        Ok (match o with Some m' => m' | None => m end)
    | TRehash => Ok (recomputeHash m)
    end.

  Fixpoint run_tree (m : MerkleTree) (ops : list tree_op) : result MerkleTree :=
    match ops with
    | [] => Ok m
    | op :: ops' => do m' <- tree_step m op; run_tree m' ops'
    end.

  (** What the user stored: the last successful [Set] for each index. *)
  Record binding := mkBinding { b_key : bytes; b_value : bytes; b_salt : bytes }.
  Definition last_set_step (f : bytes -> option binding) (op : tree_op) : bytes -> option binding :=
    match op with
    | TSet (Some r) idx key value =>
        fun i => if beq i idx then Some (mkBinding key value (Digest [r])) else f i
    | _ => f
    end.
  Definition last_set_from (f : bytes -> option binding) (ops : list tree_op) :=
    fold_left last_set_step ops f.
  Definition last_set (ops : list tree_op) : bytes -> option binding :=
    last_set_from (fun _ => None) ops.

  (** The commitment a binding is stored under. *)
  Definition commit_of (b : binding) : Commit :=
    mkCommit (b_salt b) (Digest [b_salt b; b_key b; b_value b]).

  (** All indices used in a history have [nb] bytes. *)
  Definition op_len (nb : nat) (op : tree_op) : Prop :=
    match op with TSet _ idx _ _ => length idx = nb | TRehash => True end.
  Definition ops_len (nb : nat) (ops : list tree_op) : Prop := Forall (op_len nb) ops.

  (** ** Hash inputs, to name collisions explicitly *)

  (** Hash of a subtree computed without any cache. *)
  Fixpoint fresh_hash (nonce : bytes) (n : node) : bytes :=
    match n with
    | Empty lvl i => shake (empty_pre nonce i lvl)
    | Leaf lvl d => shake (leaf_pre nonce (l_index d) lvl (c_value (l_com d)))
    | Interior _ _ _ l r => shake (fresh_hash nonce l ++ fresh_hash nonce r)
    end.

  (** Hash input of one node. *)
  Definition node_pre (nonce : bytes) (n : node) : bytes :=
    match n with
    | Empty lvl i => empty_pre nonce i lvl
    | Leaf lvl d => leaf_pre nonce (l_index d) lvl (c_value (l_com d))
    | Interior _ _ _ l r => fresh_hash nonce l ++ fresh_hash nonce r
    end.

  (** All inputs hashed when the hash of the tree is computed from scratch. *)
  Fixpoint node_inputs (nonce : bytes) (n : node) : list bytes :=
    node_pre nonce n ::
    match n with
    | Interior _ _ _ l r => node_inputs nonce l ++ node_inputs nonce r
    | _ => []
    end.

  (** Hash inputs of a whole tree: its nodes and its commitments. *)
  Definition commit_input (d : leafdata) : bytes := c_salt (l_com d) ++ l_key d ++ l_value d.
  Definition tree_inputs (m : MerkleTree) : list bytes :=
    node_inputs (t_nonce m) (t_root m) ++ map commit_input (leaves (t_root m)).

  (** A path from the root as a list of (direction, sibling hash). *)
  Definition sibs_of (bits : list bool) (pruned : list bytes) (l : nat) : list (bool * bytes) :=
    combine (firstn l bits) (firstn l pruned).

  (** Hash input one level up, given the hash [h] of the lower node. *)
  Definition node_in (s : bool * bytes) (h : bytes) : bytes :=
    if fst s then snd s ++ h else h ++ snd s.
  Definition hash_up (sibs : list (bool * bytes)) (h0 : bytes) : bytes :=
    fold_right (fun s h => shake (node_in s h)) h0 sibs.
  Fixpoint up_inputs (sibs : list (bool * bytes)) (h0 : bytes) : list bytes :=
    match sibs with
    | [] => []
    | s :: sibs' => node_in s (hash_up sibs' h0) :: up_inputs sibs' h0
    end.

  (** All inputs hashed by [Verify] on a path: the leaf, the interior nodes up
      to the root, and the opened commitment. *)
  Definition path_inputs (ap : AuthPath) (leaf : ProofNode) : list bytes :=
    match pn_pre (ap_nonce ap) leaf with
    | Panic => []
    | Ok x => x :: up_inputs (sibs_of (ToBits (pn_index leaf)) (ap_pruned ap) (pn_level leaf)) (shake x)
    end.
  Definition opening_input (leaf : ProofNode) (key value : bytes) : list bytes :=
    match pn_com leaf with
    | None => []
    | Some c => [c_salt c ++ key ++ value]
    end.
  Definition verify_inputs (ap : AuthPath) (key value : bytes) : list bytes :=
    match ap_leaf ap with
    | None => []
    | Some leaf => path_inputs ap leaf ++ opening_input leaf key value
    end.

  (** Go's type of [PrunedTree] is [[][32]byte]. *)
  Definition pruned_ok (ap : AuthPath) : Prop := Forall (fun h => length h = 32) (ap_pruned ap).

  (** Shape of a proof of absence that a checking client would have to insist
      on (the code does not): 32-byte nonce, 32-byte commitment value, and an
      empty-branch index that is not 27 bytes long (a 27-byte one makes the
      hash input as long as that of an interior node). *)
  Definition absence_shape (ap : AuthPath) (leaf : ProofNode) : Prop :=
    length (ap_nonce ap) = 32 /\
    (pn_empty leaf = false -> forall c, pn_com leaf = Some c -> length (c_value c) = 32) /\
    (pn_empty leaf = true -> length (pn_index leaf) <> 27).
End Spec.

(** [m] is the tree obtained from a fresh one (entropy [r0]) by the history
    [ops], all of whose indices have [nb > 0] bytes. *)
Definition built {C : Crypto} (nb : nat) (r0 : option bytes) (ops : list tree_op) (m : MerkleTree) : Prop :=
  0 < nb /\ ops_len nb ops /\ exists m0, NewMerkleTree r0 = Some m0 /\ run_tree m0 ops = Ok m.

(** The stored indices pairwise differ within their first [k] bits. *)
Definition spread (k : nat) (idxs : bytes -> Prop) : Prop :=
  forall a b, idxs a -> idxs b -> firstn k (ToBits a) = firstn k (ToBits b) -> a = b.

(** A proof that satisfies the bounds [Verify] relies on without checking. *)
Definition shape_ok (ap : AuthPath) : Prop :=
  exists leaf, ap_leaf ap = Some leaf /\
    pn_level leaf <= 8 * length (pn_index leaf) /\
    pn_level leaf <= 8 * length (ap_lookup ap) /\
    pn_level leaf <= length (ap_pruned ap) /\
    (pn_com leaf = None -> pn_empty leaf = true /\ pn_index leaf <> ap_lookup ap).
