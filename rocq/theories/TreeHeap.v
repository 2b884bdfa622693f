(** Pointer-level model of the Merkle tree: merkletree/node.go and the parts of
    merkletree/merkletree.go that follow or change pointers.  Nodes live in a
    heap and are mutated in place; [Tree.v] has the same functions on values.

    Byte slices inside a node (key, value, index, commitment, hashes) are
    values here: the code shares some of them between a tree and its clone
    (node.go:125-136), but never writes into one after creating it. *)
From Coq Require Import List NArith Lia Bool Arith.
From Verif Require Import Base Utils Crypto Tree TreeSpec.
Import ListNotations.

(** merkletree/node.go:8-32; addresses are positions in the heap, [None] is a
    nil pointer. *)
Inductive cell :=
| CEmpty (parent : option nat) (level : nat) (idx : bytes)
| CLeaf (parent : option nat) (level : nat) (d : leafdata)
| CInt (parent : option nat) (level : nat) (lh rh : option bytes) (l r : option nat).
(** memory for merkletree/node.go:8-32 *)
Definition heap := list cell.

(** Assignment to the node at address [a]. *)
(** memory for merkletree/node.go:8-32 *)
Definition upd (h : heap) (a : nat) (c : cell) : heap := firstn a h ++ c :: skipn (S a) h.

(** memory for merkletree/node.go:8-32 *)
Definition cell_empty (c : cell) : bool := match c with CEmpty _ _ _ => true | _ => false end.
(** memory for merkletree/node.go:8-32 *)
Definition is_ptr (p : option nat) (a : nat) : bool := match p with Some b => Nat.eqb b a | None => false end.

(** merkletree/node.go:34-66 [newInteriorNode]: three allocations; the new
    interior node is the last. *)
Definition alloc_interior (h : heap) (parent : option nat) (level : nat) (prefixBits : list bool) : heap :=
  let p := length h in
  h ++ [CEmpty (Some (p + 2)) (level + 1) (ToBytes (prefixBits ++ [false]));
        CEmpty (Some (p + 2)) (level + 1) (ToBytes (prefixBits ++ [true]));
        CInt parent level None None (Some p) (Some (p + 1))].

(** merkletree/merkletree.go:151-215, the insertion loop.  [a] is the address
    of [toAdd] (created by [Set]), with contents [d]. *)
Fixpoint insert_loop (a : nat) (d : leafdata) (bits rem : list bool) (depth ptr : nat) (h : heap) {struct rem}
  : result heap :=
  let down ptr h :=
    match nth_error h ptr with
    | Some (CInt par lvl lh rh (Some l) (Some r)) =>
        match rem with
        | [] => Panic
        | b :: rem' =>
            if b then
              let h := upd h ptr (CInt par lvl lh None (Some l) (Some r)) in
              match nth_error h r with
              | None => Panic
              | Some c =>
                  if cell_empty c
                  then Ok (upd (upd h ptr (CInt par lvl lh None (Some l) (Some a))) a (CLeaf (Some ptr) (depth + 1) d))
                  else insert_loop a d bits rem' (depth + 1) r h
              end
            else
              let h := upd h ptr (CInt par lvl None rh (Some l) (Some r)) in
              match nth_error h l with
              | None => Panic
              | Some c =>
                  if cell_empty c
                  then Ok (upd (upd h ptr (CInt par lvl None rh (Some a) (Some r))) a (CLeaf (Some ptr) (depth + 1) d))
                  else insert_loop a d bits rem' (depth + 1) l h
              end
        end
    | _ => Panic
    end in
  match nth_error h ptr with
  | Some (CLeaf par lvl old) =>
      match par with
      | None => Panic
      | Some pp =>
          if beq (l_index old) (l_index d)
          then (* toAdd.parent, toAdd.level, then the whole node is copied *)
            Ok (upd (upd h a (CLeaf par lvl d)) ptr (CLeaf par lvl d))
          else
            let ni := length h + 2 in
            let h := alloc_interior h par depth (firstn depth bits) in
            do direction <- GetNthBit (l_index old) depth;
            let h := if direction : bool
                     then upd h ni (CInt par depth None None (Some (ni - 2)) (Some ptr))
                     else upd h ni (CInt par depth None None (Some ptr) (Some (ni - 1))) in
            let h := upd h ptr (CLeaf (Some ni) (depth + 1) old) in
            match nth_error h pp with
            | Some (CInt ppar plvl plh prh pl pr) =>
                let h := if is_ptr pl ptr
                         then upd h pp (CInt ppar plvl plh prh (Some ni) pr)
                         else upd h pp (CInt ppar plvl plh prh pl (Some ni)) in
                down ni h
            | _ => Panic
            end
      end
  | Some (CInt _ _ _ _ _ _) => down ptr h
  | _ => Panic
  end.

(** merkletree/merkletree.go:30-34: a tree object *)
Record htree := mkHT { ht_nonce : bytes; ht_root : nat; ht_hash : bytes }.

Section Heap.
  Context {C : Crypto}.

  (** merkletree/merkletree.go:39-50 [NewMerkleTree] *)
  Definition h_new (h : heap) (r : option bytes) : option (heap * htree) :=
    match MakeRand r with
    | None => None
    | Some nonce => Some (alloc_interior h None 0 [], mkHT nonce (length h + 2) [])
    end.

  (** merkletree/merkletree.go:130-149 [Set] *)
  Definition h_set (h : heap) (t : htree) (r : option bytes) (idx key value : bytes) : result (option heap) :=
    match NewCommit r [key; value] with
    | None => Ok None
    | Some c =>
        let d := mkLeaf key value idx c in
        do h' <- insert_loop (length h) d (ToBits idx) (ToBits idx) 0 (ht_root t) (h ++ [CLeaf None 0 d]);
        Ok (Some h')
    end.

  (** merkletree/merkletree.go:54-123 [Get], following pointers. *)
  Fixpoint h_get_loop (h : heap) (rem : list bool) (ptr : nat) (pruned : list bytes) {struct rem}
    : result (list bytes * cell) :=
    match nth_error h ptr with
    | Some (CInt _ _ lh rh (Some l) (Some r)) =>
        match rem with
        | [] => Panic
        | b :: rem' =>
            if b : bool then h_get_loop h rem' r (pruned ++ [copy32 lh])
            else h_get_loop h rem' l (pruned ++ [copy32 rh])
        end
    | Some (CInt _ _ _ _ _ _) | None => Panic
    | Some c => Ok (pruned, c)
    end.
  (** merkletree/merkletree.go:54-123 *)
  Definition h_get (h : heap) (t : htree) (lookup : bytes) : result AuthPath :=
    do (pruned, c) <- h_get_loop h (ToBits lookup) (ht_root t) [];
    do leaf <- proof_leaf lookup (match c with
                                  | CEmpty _ lvl i => Empty lvl i
                                  | CLeaf _ lvl d => Leaf lvl d
                                  | CInt _ lvl lh rh _ _ => Interior lvl lh rh (Empty 0 []) (Empty 0 []) end);
    Ok (mkAP (ht_nonce t) pruned lookup [] (Some leaf)).

  (** merkletree/node.go:78-105 [hash].  Recursion is bounded by [fuel]: the
      code would not return where the model runs out of it, which the theorems
      exclude. *)
  Fixpoint h_hash (fuel : nat) (nonce : bytes) (ptr : nat) (h : heap) : result (bytes * heap) :=
    match fuel with
    | O => Panic
    | S fuel' =>
        match nth_error h ptr with
        | Some (CEmpty _ lvl i) => Ok (shake (empty_pre nonce i lvl), h)
        | Some (CLeaf _ lvl d) => Ok (shake (leaf_pre nonce (l_index d) lvl (c_value (l_com d))), h)
        | Some (CInt par lvl lh rh (Some l) (Some r)) =>
            do (hl, h1) <- match lh with Some x => Ok (x, h) | None => h_hash fuel' nonce l h end;
            let h1 := upd h1 ptr (CInt par lvl (Some hl) rh (Some l) (Some r)) in
            do (hr, h2) <- match rh with Some x => Ok (x, h1) | None => h_hash fuel' nonce r h1 end;
            let h2 := upd h2 ptr (CInt par lvl (Some hl) (Some hr) (Some l) (Some r)) in
            Ok (Digest [hl; hr], h2)
        | _ => Panic
        end
    end.
  (** merkletree/merkletree.go:242-244 [recomputeHash] *)
  Definition h_rehash (h : heap) (t : htree) : result (heap * htree) :=
    do (x, h') <- h_hash (length h) (ht_nonce t) (ht_root t) h;
    Ok (h', mkHT (ht_nonce t) (ht_root t) x).

  (** merkletree/node.go:107-146 [clone]: the copy of an interior node is
      allocated first, its children are filled in afterwards. *)
  Fixpoint h_clone (fuel : nat) (parent : option nat) (ptr : nat) (h : heap) : result (nat * heap) :=
    match fuel with
    | O => Panic
    | S fuel' =>
        match nth_error h ptr with
        | Some (CEmpty _ lvl i) => Ok (length h, h ++ [CEmpty parent lvl i])
        | Some (CLeaf _ lvl d) => Ok (length h, h ++ [CLeaf parent lvl d])
        | Some (CInt _ lvl lh rh l r) =>
            let cp x := Some (match x with Some x => x | None => [] end) in
            let p := length h in
            let h0 := h ++ [CInt parent lvl (cp lh) (cp rh) None None] in
            match l, r with
            | Some l, Some r =>
                do (pl, h1) <- h_clone fuel' (Some p) l h0;
                let h1 := upd h1 p (CInt parent lvl (cp lh) (cp rh) (Some pl) None) in
                do (pr, h2) <- h_clone fuel' (Some p) r h1;
                Ok (p, upd h2 p (CInt parent lvl (cp lh) (cp rh) (Some pl) (Some pr)))
            | _, _ => Panic
            end
        | None => Panic
        end
    end.
  (** merkletree/merkletree.go:249-255 [Clone] *)
  Definition h_Clone (h : heap) (t : htree) : result (heap * htree) :=
    do (p, h') <- h_clone (length h) None (ht_root t) h;
    Ok (h', mkHT (ht_nonce t) p (ht_hash t)).

  (** *** Programs that use several trees in one heap *)
  (** programs calling merkletree/merkletree.go:39-50 (new), :130-143 (Set), :54-123 (Get), :242-244 (recomputeHash), :249-255 (Clone) *)
  Inductive forest_op :=
  | FNew (r : option bytes)
  | FSet (k : nat) (r : option bytes) (idx key value : bytes)
  | FRehash (k : nat)
  | FClone (k : nat).

  (** With pointers: the heap and the tree objects created so far. *)
  (** programs calling merkletree/merkletree.go:39-50 (new), :130-143 (Set), :54-123 (Get), :242-244 (recomputeHash), :249-255 (Clone) *)
  Definition set_nth {A} (l : list A) (k : nat) (x : A) : list A := firstn k l ++ x :: skipn (S k) l.
  (** programs calling merkletree/merkletree.go:39-50 (new), :130-143 (Set), :54-123 (Get), :242-244 (recomputeHash), :249-255 (Clone) *)
  Definition hstep (s : heap * list htree) (op : forest_op) : result (heap * list htree) :=
    let '(h, ts) := s in
    match op with
    | FNew r => match h_new h r with None => Ok s | Some (h', t) => Ok (h', ts ++ [t]) end
    | FSet k r idx key value =>
        do t <- index ts k;
        do o <- h_set h t r idx key value;
        Ok (match o with None => s | Some h' => (h', ts) end)
    | FRehash k => do t <- index ts k; do (h', t') <- h_rehash h t; Ok (h', set_nth ts k t')
    | FClone k => do t <- index ts k; do (h', t') <- h_Clone h t; Ok (h', ts ++ [t'])
    end.
  (** programs calling merkletree/merkletree.go:39-50 (new), :130-143 (Set), :54-123 (Get), :242-244 (recomputeHash), :249-255 (Clone) *)
  Fixpoint hrun (s : heap * list htree) (ops : list forest_op) : result (heap * list htree) :=
    match ops with [] => Ok s | op :: ops' => do s' <- hstep s op; hrun s' ops' end.

  (** On values: independent trees, [FClone] adds a copy. *)
  (** programs calling merkletree/merkletree.go:39-50 (new), :130-143 (Set), :54-123 (Get), :242-244 (recomputeHash), :249-255 (Clone) *)
  Definition vstep (ts : list MerkleTree) (op : forest_op) : result (list MerkleTree) :=
    match op with
    | FNew r => Ok (match NewMerkleTree r with None => ts | Some t => ts ++ [t] end)
    | FSet k r idx key value =>
        do t <- index ts k;
        do o <- Set_ t r idx key value;
        Ok (match o with None => ts | Some t' => set_nth ts k t' end)
    | FRehash k => do t <- index ts k; Ok (set_nth ts k (recomputeHash t))
    | FClone k => do t <- index ts k; Ok (ts ++ [Clone t])
    end.
  (** programs calling merkletree/merkletree.go:39-50 (new), :130-143 (Set), :54-123 (Get), :242-244 (recomputeHash), :249-255 (Clone) *)
  Fixpoint vrun (ts : list MerkleTree) (ops : list forest_op) : result (list MerkleTree) :=
    match ops with [] => Ok ts | op :: ops' => do ts' <- vstep ts op; vrun ts' ops' end.
End Heap.
