(** Model of the Merkle prefix tree: merkletree/merkletree.go and
    merkletree/node.go, and of authentication paths: merkletree/proof.go.

    Nodes are values; parent pointers are omitted (they are only used to find
    the link to overwrite when a leaf is pushed down).  [TreeHeap.v] has the
    pointer-level version. *)
From Coq Require Import List NArith Lia Bool Arith.
From Verif Require Import Base Utils Crypto.
Import ListNotations.

(** merkletree/node.go:8-32.  [Interior level leftHash rightHash left right]
    where a [None] hash is Go's nil slice ("must be recomputed"). *)
Record leafdata := mkLeaf {
  l_key : bytes; l_value : bytes; l_index : bytes; l_com : Commit }.
(** merkletree/node.go:8-32 *)
Inductive node :=
| Empty (level : nat) (idx : bytes)
| Leaf (level : nat) (d : leafdata)
| Interior (level : nat) (lh rh : option bytes) (l r : node).

(** merkletree/merkletree.go:30-34 *)
Record MerkleTree := mkTree { t_nonce : bytes; t_root : node; t_hash : bytes }.

(** merkletree/merkletree.go:20,24 *)
Definition EmptyBranchIdentifier : byte := x45. (* 'E' *)
(** merkletree/merkletree.go:17-25 *)
Definition LeafIdentifier : byte := x4c.        (* 'L' *)

(** merkletree/proof.go:31-37.  [pn_value = None] is a nil slice, [pn_com =
    None] a nil pointer. *)
Record ProofNode := mkPN {
  pn_level : nat; pn_index : bytes; pn_value : option bytes; pn_empty : bool;
  pn_com : option Commit }.

(** merkletree/proof.go:76-83.  The memoised [proofType] field is omitted: it is
    a function of [ap_lookup] and the leaf, neither of which changes after the
    first call in the modelled code. *)
Record AuthPath := mkAP {
  ap_nonce : bytes; ap_pruned : list bytes; ap_lookup : bytes; ap_vrf : bytes;
  ap_leaf : option ProofNode }.

(** merkletree/node.go:148-158 [isEmpty] *)
Definition isEmpty (n : node) : bool :=
  match n with Empty _ _ => true | _ => false end.

(** merkletree/node.go:34-66 [newInteriorNode] *)
Definition newInteriorNode (level : nat) (prefixBits : list bool) : node :=
  Interior level None None
    (Empty (level + 1) (ToBytes (prefixBits ++ [false])))
    (Empty (level + 1) (ToBytes (prefixBits ++ [true]))).

(** merkletree/merkletree.go:39-50 [NewMerkleTree]; [r] is the entropy. *)
Definition NewMerkleTree {C : Crypto} (r : option bytes) : option MerkleTree :=
  match MakeRand r with
  | None => None
  | Some nonce => Some (mkTree nonce (newInteriorNode 0 []) [])
  end.

(** merkletree/merkletree.go:151-215, the insertion loop, one iteration per
    level.  [bits] is [indexBits], [rem] is [indexBits[depth:]].  The local
    [down] is the [*interiorNode] case (187-211); the [*userLeafNode] case
    (154-186) replaces the leaf's contents, or builds a new interior node
    holding the old leaf and continues with it. *)
Fixpoint insert (d : leafdata) (bits rem : list bool) (depth : nat) (n : node) {struct rem}
  : result node :=
  let down lvl lh rh l r :=
    match rem with
    | [] => Panic
    | b :: rem' =>
        if b then
          if isEmpty r then Ok (Interior lvl lh None l (Leaf (depth + 1) d))
          else do r' <- insert d bits rem' (depth + 1) r; Ok (Interior lvl lh None l r')
        else
          if isEmpty l then Ok (Interior lvl None rh (Leaf (depth + 1) d) r)
          else do l' <- insert d bits rem' (depth + 1) l; Ok (Interior lvl None rh l' r)
    end in
  match n with
  | Leaf lvl old =>
      if beq (l_index old) (l_index d) then Ok (Leaf lvl d)
      else
        do direction <- GetNthBit (l_index old) depth;
        match newInteriorNode depth (firstn depth bits) with
        | Interior lvl' lh rh l r =>
            if direction : bool
            then down lvl' lh rh l (Leaf (depth + 1) old)
            else down lvl' lh rh (Leaf (depth + 1) old) r
        | _ => Panic
        end
  | Interior lvl lh rh l r => down lvl lh rh l r
  | Empty _ _ => Panic
  end.

(** merkletree/merkletree.go:145-216 [insertNode] *)
Definition insertNode (m : MerkleTree) (idx : bytes) (d : leafdata) : result MerkleTree :=
  do root <- insert d (ToBits idx) (ToBits idx) 0 (t_root m);
  Ok (mkTree (t_nonce m) root (t_hash m)).

(** merkletree/merkletree.go:130-143 [Set]: [Ok None] is a returned error (no
    entropy for the commitment), which leaves the tree as it was. *)
Definition Set_ {C : Crypto} (m : MerkleTree) (r : option bytes) (idx key value : bytes)
  : result (option MerkleTree) :=
  match NewCommit r [key; value] with
  | None => Ok None
  | Some c =>
      do m' <- insertNode m idx (mkLeaf key value idx c); Ok (Some m')
  end.

(** Go's [copy(hashArr[:], h)] into a zeroed [32]byte array
    (merkletree/merkletree.go:75-81). *)
Definition copy32 (h : option bytes) : bytes :=
  firstn 32 (match h with Some h => h | None => [] end ++ repeat x00 32).

(** merkletree/merkletree.go:65-85, the descent of [Get]. *)
Fixpoint get_loop (bits : list bool) (depth : nat) (n : node) (pruned : list bytes)
  : result (list bytes * node) :=
  match n with
  | Empty _ _ | Leaf _ _ => Ok (pruned, n)
  | Interior _ lh rh l r =>
      do direction <- index bits depth;
      if direction : bool
      then get_loop bits (depth + 1) r (pruned ++ [copy32 lh])
      else get_loop bits (depth + 1) l (pruned ++ [copy32 rh])
  end.

(** merkletree/merkletree.go:90-121: the leaf of the authentication path. *)
Definition proof_leaf (lookup : bytes) (n : node) : result ProofNode :=
  match n with
  | Leaf lvl d =>
      if beq (l_index d) lookup
      then Ok (mkPN lvl (l_index d) (Some (l_value d)) false (Some (l_com d)))
      else Ok (mkPN lvl (l_index d) None false (Some (mkCommit [] (c_value (l_com d)))))
  | Empty lvl i => Ok (mkPN lvl i None true None)
  | Interior _ _ _ _ _ => Panic
  end.

(** merkletree/merkletree.go:54-123 [Get] *)
Definition Get (m : MerkleTree) (lookup : bytes) : result AuthPath :=
  do (pruned, n) <- get_loop (ToBits lookup) 0 (t_root m) [];
  do leaf <- proof_leaf lookup n;
  Ok (mkAP (t_nonce m) pruned lookup [] (Some leaf)).

Section Hash.
  Context {C : Crypto}.

  (** merkletree/node.go:98-105 and merkletree/proof.go:42-47: hash input of an
      empty branch. *)
  Definition empty_pre (nonce idx : bytes) (level : nat) : bytes :=
    concat [[EmptyBranchIdentifier]; nonce; idx; UInt32ToBytes (N.of_nat level)].
  (** merkletree/node.go:88-96 and merkletree/proof.go:50-56: hash input of a
      user leaf. *)
  Definition leaf_pre (nonce idx : bytes) (level : nat) (com : bytes) : bytes :=
    concat [[LeafIdentifier]; nonce; idx; UInt32ToBytes (N.of_nat level); com].

  (** merkletree/node.go:78-105 [hash]: returns the hash and the node with its
      missing child hashes filled in. *)
  Fixpoint hash_node (nonce : bytes) (n : node) : bytes * node :=
    match n with
    | Empty lvl i => (shake (empty_pre nonce i lvl), n)
    | Leaf lvl d => (shake (leaf_pre nonce (l_index d) lvl (c_value (l_com d))), n)
    | Interior lvl lh rh l r =>
        let '(hl, l') := match lh with Some h => (h, l) | None => hash_node nonce l end in
        let '(hr, r') := match rh with Some h => (h, r) | None => hash_node nonce r end in
        (Digest [hl; hr], Interior lvl (Some hl) (Some hr) l' r')
    end.

  (** merkletree/merkletree.go:242-244 [recomputeHash] *)
  Definition recomputeHash (m : MerkleTree) : MerkleTree :=
    let '(h, root) := hash_node (t_nonce m) (t_root m) in mkTree (t_nonce m) root h.

  (** merkletree/node.go:107-146 [clone]: [append([]byte{}, h...)] turns a nil
      hash into a non-nil empty one. *)
  Fixpoint clone_node (n : node) : node :=
    match n with
    | Interior lvl lh rh l r =>
        let cp h := Some (match h with Some h => h | None => [] end) in
        Interior lvl (cp lh) (cp rh) (clone_node l) (clone_node r)
    | _ => n
    end.
  (** merkletree/merkletree.go:249-255 [Clone] *)
  Definition Clone (m : MerkleTree) : MerkleTree :=
    mkTree (t_nonce m) (clone_node (t_root m)) (t_hash m).

  (** merkletree/merkletree.go:220-240 [visitLeafNodes]: the leaves in visiting
      order. *)
  Fixpoint leaves (n : node) : list leafdata :=
    match n with
    | Empty _ _ => []
    | Leaf _ d => [d]
    | Interior _ _ _ l r => leaves l ++ leaves r
    end.

  (** merkletree/proof.go:39-58 [(n *ProofNode) hash]; panics on a nil
      commitment of a non-empty node. *)
  Definition pn_pre (nonce : bytes) (n : ProofNode) : result bytes :=
    if pn_empty n then Ok (empty_pre nonce (pn_index n) (pn_level n))
    else match pn_com n with
         | None => Panic
         | Some c => Ok (leaf_pre nonce (pn_index n) (pn_level n) (c_value c))
         end.
  (** merkletree/proof.go:39-58 *)
  Definition pn_hash (nonce : bytes) (n : ProofNode) : result bytes :=
    do x <- pn_pre nonce n; Ok (shake x).

  (** merkletree/proof.go:89-96, the loop of [authPathHash]. *)
  Fixpoint aph_loop (bits : list bool) (pruned : list bytes) (depth : nat) (hash : bytes)
    : result bytes :=
    match depth with
    | O => Ok hash
    | S depth' =>
        do b <- index bits depth';
        do p <- index pruned depth';
        aph_loop bits pruned depth'
          (if b : bool then Digest [p; hash] else Digest [hash; p])
    end.

  (** merkletree/proof.go:85-98 [authPathHash] *)
  Definition authPathHash (ap : AuthPath) (leaf : ProofNode) : result bytes :=
    do h <- pn_hash (ap_nonce ap) leaf;
    aph_loop (ToBits (pn_index leaf)) (ap_pruned ap) (pn_level leaf) h.

  (** merkletree/proof.go:60-68,145-154 [ProofType] *)
  Inductive proof_type := ProofOfAbsence | ProofOfInclusion.
  (** merkletree/proof.go:60-68 *)
  Definition ProofType (ap : AuthPath) : result proof_type :=
    match ap_leaf ap with
    | None => Panic
    | Some leaf =>
        Ok (if beq (ap_lookup ap) (pn_index leaf) then ProofOfInclusion else ProofOfAbsence)
    end.

  (** merkletree/proof.go:11-23 *)
  Inductive verr :=
  | ErrBindingsDiffer | ErrUnverifiableCommitment | ErrIndicesMismatch | ErrUnequalTreeHashes.

  (** merkletree/proof.go:115-119: compares the first [l] bits from position
      [i] on; [Ok false] is a mismatch. *)
  Fixpoint match_bits (a b : list bool) (i l : nat) : result bool :=
    match l with
    | O => Ok true
    | S l' =>
        do x <- index a i;
        do y <- index b i;
        if eqb x y then match_bits a b (i + 1) l' else Ok false
    end.

  (** A nil slice read as a byte string. *)
  (** nil slices, e.g. merkletree/proof.go:34 *)
  Definition obytes (o : option bytes) : bytes := match o with Some b => b | None => [] end.

  (** merkletree/proof.go:110-139 [Verify]; [Ok None] is a nil error. *)
  Definition Verify (ap : AuthPath) (key : bytes) (value : option bytes) (treeHash : bytes)
    : result (option verr) :=
    do pt <- ProofType ap;
    match ap_leaf ap with
    | None => Panic
    | Some leaf =>
        let tail :=
          do h <- authPathHash ap leaf;
          Ok (if beq treeHash h then None else Some ErrUnequalTreeHashes) in
        match pt with
        | ProofOfAbsence =>
            do ok <- match_bits (ToBits (pn_index leaf)) (ToBits (ap_lookup ap)) 0 (pn_level leaf);
            if ok : bool then
              match pn_value leaf with
              | Some _ => Ok (Some ErrBindingsDiffer)
              | None => tail
              end
            else Ok (Some ErrIndicesMismatch)
        | ProofOfInclusion =>
            if negb (beq (obytes (pn_value leaf)) (obytes value)) then Ok (Some ErrBindingsDiffer)
            else match pn_com leaf with
                 | None => Panic
                 | Some c =>
                     if Commit_Verify c [key; obytes value] then tail
                     else Ok (Some ErrUnverifiableCommitment)
                 end
        end
    end.
End Hash.
