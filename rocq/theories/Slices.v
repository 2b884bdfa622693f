(** Model of the byte slices behind the tree, the dictionary and the directory:
    which arrays are shared between whom, and who writes into them.

    Go byte slices are windows on arrays.  Tree.v, PAD.v and Directory.v treat them
    as values, TreeHeap.v and PADHeap.v have the pointers between nodes, trees and
    signed tree roots.  Here nodes are values again, and every [[]byte] field is a
    window on an array in memory; [append] writes in place whenever the capacity
    allows it.  Strings and [[32]byte] arrays are values in Go and here. *)
From Coq Require Import List NArith Lia Bool Arith.
From Verif Require Import Base Utils Crypto Tree STR PAD Protocol Directory.
Import ListNotations.

(** ** Slices *)

(** Go slice header: array, offset, length, capacity (from the offset on).  The nil
    slice is [None]. *)
(** Go slices, the []byte fields of merkletree/node.go:8-32 and the like *)
Record slice := mkS { sa : nat; so : nat; sl : nat; sc : nat }.
(** Go slices, possibly nil *)
Definition gs := option slice.
(** Go memory: the arrays allocated so far; an array never changes its length. *)
Definition mem := list bytes.
(** the contents of a Go slice *)
Definition rd (m : mem) (s : gs) : bytes :=
  match s with None => [] | Some s => firstn (sl s) (skipn (so s) (nth (sa s) m [])) end.
(** [make] followed by filling the new array *)
(** e.g. crypto/util.go:24-25 (make and Read) *)
Definition make (b : bytes) (m : mem) : gs * mem :=
  (Some (mkS (length m) 0 (length b) (length b)), m ++ [b]).
(** assignment to consecutive elements of an array *)
(** Go assignment s[i] = v and copy *)
Definition write (a off : nat) (xs : bytes) (m : mem) : mem :=
  set_nth a (firstn off (nth a m []) ++ xs ++ skipn (off + length xs) (nth a m [])) m.
(** [s[:n]]: same array, same capacity *)
(** merkletree/merkletree.go:171 (indexBits[:depth]) *)
Definition sub (s : gs) (n : nat) : gs :=
  option_map (fun s => mkS (sa s) (so s) n (sc s)) s.

Section Slices.
  (** How much a new array is made larger than needed: chosen by the Go run time. *)
  Variable growth : nat -> nat -> nat.

  (** Go's [append]: in place if the capacity suffices, otherwise into a new array. *)
  (** Go append, as used at merkletree/node.go:35-38, :113-144, merkletree/str.go:61-73, merkletree/merkletree.go:137, protocol/policy.go:45-48 *)
  Definition append (s : gs) (xs : bytes) (m : mem) : gs * mem :=
    let '(l, c) := match s with None => (0, 0) | Some s => (sl s, sc s) end in
    if Nat.leb (l + length xs) c then
      match s with
      | None => (None, m)
      | Some s => (Some (mkS (sa s) (so s) (l + length xs) c), write (sa s) (so s + l) xs m)
      end
    else
      let c' := Nat.max (l + length xs) (growth c (l + length xs)) in
      (Some (mkS (length m) 0 (l + length xs) c'),
       m ++ [rd m s ++ xs ++ repeat x00 (c' - (l + length xs))]).
  (** [append([]byte{}, x...)]: a copy, never nil *)
  (** merkletree/node.go:113-114, :133, :144; merkletree/merkletree.go:137, :253 *)
  Definition copy_of (s : gs) (m : mem) : gs * mem :=
    let '(e, m) := make [] m in append e (rd m s) m.

  (** A [[]bool] is kept as bytes 0 and 1. *)
  (** Go bool *)
  Definition benc (b : bool) : byte := if b then x01 else x00.
  (** Go bool *)
  Definition bools (m : mem) (s : gs) : list bool := map (fun b => negb (byte_eqb b x00)) (rd m s).

  (** ** The tree *)

  (** merkletree/node.go:23-28; the pointer to the commitment is shared by clones and
      never written through. *)
  Record rleaf := mkRL { rl_key : bytes; rl_value : gs; rl_index : gs; rl_salt : gs; rl_com : gs }.
  (** merkletree/node.go:8-32 *)
  Inductive rnode :=
  | REmpty (level : nat) (idx : gs)
  | RLeaf (level : nat) (d : rleaf)
  | RInt (level : nat) (lh rh : gs) (l r : rnode).
  (** merkletree/merkletree.go:30-34 *)
  Record rtree := mkRT { rt_nonce : gs; rt_root : rnode; rt_hash : gs }.

  (** merkletree/node.go:34-66 [newInteriorNode] *)
  Definition r_newInterior (level : nat) (prefix : gs) (m : mem) : rnode * mem :=
    let '(pl, m) := append None (rd m prefix) m in
    let '(pl, m) := append pl [benc false] m in
    let '(pr, m) := append None (rd m prefix) m in
    let '(pr, m) := append pr [benc true] m in
    let '(il, m) := make (ToBytes (bools m pl)) m in
    let '(ir, m) := make (ToBytes (bools m pr)) m in
    (RInt level None None (REmpty (level + 1) il) (REmpty (level + 1) ir), m).

  (** merkletree/node.go:148-158 [isEmpty] *)
  Definition r_isEmpty (n : rnode) : bool := match n with REmpty _ _ => true | _ => false end.

  (** merkletree/merkletree.go:151-215, the insertion loop; [bits] is [indexBits], read
      from memory in every iteration.  [fuel]: more than the number of bits. *)
  Fixpoint r_insert (fuel : nat) (d : rleaf) (bits : gs) (depth : nat) (n : rnode) (m : mem) {struct fuel}
    : result (rnode * mem) :=
    match fuel with
    | O => Panic
    | S fuel' =>
        let down lvl lh rh l r m :=
          do b <- index (bools m bits) depth;
          if b : bool then
            if r_isEmpty r then Ok (RInt lvl lh None l (RLeaf (depth + 1) d), m)
            else do (r', m') <- r_insert fuel' d bits (depth + 1) r m; Ok (RInt lvl lh None l r', m')
          else
            if r_isEmpty l then Ok (RInt lvl None rh (RLeaf (depth + 1) d) r, m)
            else do (l', m') <- r_insert fuel' d bits (depth + 1) l m; Ok (RInt lvl None rh l' r, m') in
        match n with
        | RLeaf lvl old =>
            if beq (rd m (rl_index old)) (rd m (rl_index d)) then Ok (RLeaf lvl d, m)
            else
              let '(ni, m) := r_newInterior depth (sub bits depth) m in
              do direction <- GetNthBit (rd m (rl_index old)) depth;
              match ni with
              | RInt lvl' lh rh l r =>
                  if direction : bool
                  then down lvl' lh rh l (RLeaf (depth + 1) old) m
                  else down lvl' lh rh (RLeaf (depth + 1) old) r m
              | _ => Panic
              end
        | RInt lvl lh rh l r => down lvl lh rh l r m
        | REmpty _ _ => Panic
        end
    end.

  (** merkletree/proof.go:31-37 *)
  Record rPN := mkRPN { rn_level : nat; rn_index : gs; rn_value : gs; rn_empty : bool; rn_com : option (gs * gs) }.
  (** merkletree/proof.go:76-83; [PrunedTree] is a slice of arrays made by [Get]. *)
  Record rAP := mkRAP { ra_nonce : gs; ra_pruned : list bytes; ra_lookup : gs; ra_vrf : gs; ra_leaf : option rPN }.

  (** merkletree/merkletree.go:65-85 *)
  Fixpoint r_get_loop (bits : gs) (depth : nat) (n : rnode) (pruned : list bytes) (m : mem) : result (list bytes * rnode) :=
    match n with
    | REmpty _ _ | RLeaf _ _ => Ok (pruned, n)
    | RInt _ lh rh l r =>
        do direction <- index (bools m bits) depth;
        if direction : bool
        then r_get_loop bits (depth + 1) r (pruned ++ [copy32 (option_map (fun s => rd m (Some s)) lh)]) m
        else r_get_loop bits (depth + 1) l (pruned ++ [copy32 (option_map (fun s => rd m (Some s)) rh)]) m
    end.
  (** merkletree/merkletree.go:90-121: the leaf of the path refers to the arrays of the
      node. *)
  Definition r_proof_leaf (lookup : gs) (n : rnode) (m : mem) : result rPN :=
    match n with
    | RLeaf lvl d =>
        if beq (rd m (rl_index d)) (rd m lookup)
        then Ok (mkRPN lvl (rl_index d) (rl_value d) false (Some (rl_salt d, rl_com d)))
        else Ok (mkRPN lvl (rl_index d) None false (Some (None, rl_com d)))
    | REmpty lvl i => Ok (mkRPN lvl i None true None)
    | RInt _ _ _ _ _ => Panic
    end.
  (** merkletree/merkletree.go:54-123 [Get] *)
  Definition r_Get (t : rtree) (lookup : gs) (m : mem) : result (rAP * mem) :=
    let '(bits, m) := make (map benc (ToBits (rd m lookup))) m in
    do (pruned, n) <- r_get_loop bits 0 (rt_root t) [] m;
    do leaf <- r_proof_leaf lookup n m;
    Ok (mkRAP (rt_nonce t) pruned lookup None (Some leaf), m).

  Context {C : Crypto}.

  (** merkletree/merkletree.go:39-50 [NewMerkleTree] *)
  Definition r_New (r : option bytes) (m : mem) : option (rtree * mem) :=
    match r with
    | None => None
    | Some r =>
        let '(none, m) := make [] m in
        let '(root, m) := r_newInterior 0 none m in
        let '(rb, m) := make r m in
        let '(nonce, m) := make (Digest [rd m rb]) m in
        Some (mkRT nonce root None, m)
    end.

  (** merkletree/merkletree.go:130-149 [Set] with crypto/util.go:38-69: the value is
      copied, the index is not. *)
  Definition r_Set (t : rtree) (r : option bytes) (idx : gs) (key : bytes) (value : gs) (m : mem)
    : result (option rtree * mem) :=
    match r with
    | None => Ok (None, m)
    | Some r =>
        let '(kb, m) := make key m in
        let '(rb, m) := make r m in
        let '(salt, m) := make (Digest [rd m rb]) m in
        let '(com, m) := make (Digest [rd m salt; rd m kb; rd m value]) m in
        let '(v, m) := copy_of value m in
        let '(bits, m) := make (map benc (ToBits (rd m idx))) m in
        do (root, m) <- r_insert (S (length (rd m bits))) (mkRL key v idx salt com) bits 0 (rt_root t) m;
        Ok (Some (mkRT (rt_nonce t) root (rt_hash t)), m)
    end.

  (** merkletree/node.go:78-105 [hash] *)
  Fixpoint r_hash (nonce : gs) (n : rnode) (m : mem) : gs * rnode * mem :=
    match n with
    | REmpty lvl i =>
        let '(h, m) := make (shake (empty_pre (rd m nonce) (rd m i) lvl)) m in (h, n, m)
    | RLeaf lvl d =>
        let '(h, m) := make (shake (leaf_pre (rd m nonce) (rd m (rl_index d)) lvl (rd m (rl_com d)))) m in (h, n, m)
    | RInt lvl lh rh l r =>
        let '(hl, l, m) := match lh with Some _ => (lh, l, m) | None => r_hash nonce l m end in
        let '(hr, r, m) := match rh with Some _ => (rh, r, m) | None => r_hash nonce r m end in
        let '(h, m) := make (Digest [rd m hl; rd m hr]) m in
        (h, RInt lvl hl hr l r, m)
    end.
  (** merkletree/merkletree.go:242-244 [recomputeHash] *)
  Definition r_rehash (t : rtree) (m : mem) : rtree * mem :=
    let '(h, root, m) := r_hash (rt_nonce t) (rt_root t) m in (mkRT (rt_nonce t) root h, m).

  (** merkletree/node.go:107-146 [clone]: hashes and indices are copied, values and
      commitments are shared. *)
  Fixpoint r_clone (n : rnode) (m : mem) : rnode * mem :=
    match n with
    | REmpty lvl i => let '(i, m) := copy_of i m in (REmpty lvl i, m)
    | RLeaf lvl d =>
        let '(i, m) := copy_of (rl_index d) m in
        (RLeaf lvl (mkRL (rl_key d) (rl_value d) i (rl_salt d) (rl_com d)), m)
    | RInt lvl lh rh l r =>
        let '(lh, m) := copy_of lh m in
        let '(rh, m) := copy_of rh m in
        let '(l, m) := r_clone l m in
        let '(r, m) := r_clone r m in
        (RInt lvl lh rh l r, m)
    end.
  (** merkletree/merkletree.go:249-255 [Clone]: the nonce is shared *)
  Definition r_Clone (t : rtree) (m : mem) : rtree * mem :=
    let '(root, m) := r_clone (rt_root t) m in
    let '(h, m) := copy_of (rt_hash t) m in
    (mkRT (rt_nonce t) root h, m).

  (** ** Signed tree roots *)

  (** protocol/policy.go:19-24 *)
  Record rpol := mkRPol { rq_version : bytes; rq_hashid : bytes; rq_vrf : gs; rq_deadline : N }.
  (** merkletree/str.go:23-31 *)
  Record rSTR := mkRSTR {
    rs_tree : rtree; rs_hash : gs; rs_epoch : N; rs_pepoch : N; rs_phash : gs; rs_sig : gs; rs_ad : rpol }.

  (** protocol/policy.go:43-50 [Serialize] *)
  Definition r_pol_ser (p : rpol) (m : mem) : gs * mem :=
    let '(b, m) := append None (rq_version p) m in
    let '(b, m) := append b (rq_hashid p) m in
    let '(b, m) := append b (rd m (rq_vrf p)) m in
    let '(t, m) := make (ULongToBytes (rq_deadline p)) m in
    append b (rd m t) m.
  (** merkletree/str.go:66-75 [SerializeInternal] *)
  Definition r_ser_internal (hash : gs) (epoch pepoch : N) (phash : gs) (m : mem) : gs * mem :=
    let '(t, m) := make (ULongToBytes epoch) m in
    let '(b, m) := append None (rd m t) m in
    let '(b, m) := if N.ltb 0 epoch then
                     let '(t, m) := make (ULongToBytes pepoch) m in append b (rd m t) m
                   else (b, m) in
    let '(b, m) := append b (rd m hash) m in
    append b (rd m phash) m.
  (** merkletree/str.go:36-52 [NewSTR] with :60-62 [Serialize]; [TreeHash] is the
      tree's own hash slice. *)
  Definition r_NewSTR (key : gs) (ad : rpol) (t : rtree) (epoch : N) (phash : gs) (m : mem) : rSTR * mem :=
    let pepoch := if N.eqb epoch 0 then 0%N else (epoch - 1)%N in
    let '(b, m) := r_ser_internal (rt_hash t) epoch pepoch phash m in
    let '(p, m) := r_pol_ser ad m in
    let '(b, m) := append b (rd m p) m in
    let '(sig, m) := make (sign_sign (rd m key) (rd m b)) m in
    (mkRSTR t (rt_hash t) epoch pepoch phash sig ad, m).

  (** ** The dictionary *)

  (** merkletree/pad.go:23-31 *)
  Record rPAD := mkRPAD {
    rp_sign : gs; rp_vrf : gs; rp_tree : rtree; rp_snap : list (N * rSTR);
    rp_loaded : list N; rp_cap : nat; rp_latest : rSTR; rp_ad : rpol }.

  (** merkletree/pad.go:66-70 *)
  Definition r_sign_root (sign : gs) (ad : rpol) (t : rtree) (epoch : N) (phash : gs) (m : mem) : rtree * rSTR * mem :=
    let '(t, m) := r_rehash t m in
    let '(c, m) := r_Clone t m in
    let '(s, m) := r_NewSTR sign ad c epoch phash m in
    (t, s, m).
  (** merkletree/pad.go:36-65 [NewPAD]: both keys are kept as they are passed *)
  Definition r_NewPAD (ad : rpol) (sign vrf : gs) (len : nat) (r1 r2 : option bytes) (m : mem)
    : result (option (rPAD * mem)) :=
    match r_New r1 m with
    | None => Ok None
    | Some (t, m) =>
        match r2 with
        | None => Panic
        | Some r =>
            let '(rb, m) := make r m in
            let '(ph, m) := make (Digest [rd m rb]) m in
            let '(t, s, m) := r_sign_root sign ad t 0 ph m in
            Ok (Some (mkRPAD sign vrf t (map_set N.eqb 0%N s []) [0%N] (grow 0 len) s ad, m))
        end
    end.
  (** merkletree/pad.go:90-98 *)
  Definition r_evict (p : rPAD) : list (N * rSTR) * list N :=
    if Nat.eqb (length (rp_loaded p)) (rp_cap p) then
      let n := rp_cap p / 2 in
      (fold_left (fun s e => map_del N.eqb e s) (firstn n (rp_loaded p)) (rp_snap p), skipn n (rp_loaded p))
    else (rp_snap p, rp_loaded p).
  (** merkletree/pad.go:73-100 [Update] *)
  Definition r_Update (p : rPAD) (ad : option rpol) (m : mem) : rPAD * mem :=
    let '(snap, loaded) := r_evict p in
    let epoch := add64 (rs_epoch (rp_latest p)) 1 in
    let '(ph, m) := make (Digest [rd m (rs_sig (rp_latest p))]) m in
    let '(t, s, m) := r_sign_root (rp_sign p) (rp_ad p) (rp_tree p) epoch ph m in
    (mkRPAD (rp_sign p) (rp_vrf p) t (map_set N.eqb epoch s snap) (loaded ++ [epoch]) (grow (length loaded) (rp_cap p)) s
       (match ad with Some ad => ad | None => rp_ad p end), m).
  (** merkletree/pad.go:157-160, :179-182 with crypto/vrf/vrf.go:125-171 [Prove]: new
      slices for index and proof *)
  Definition r_index (p : rPAD) (key : bytes) (m : mem) : gs * gs * mem :=
    let '(i, pf) := vrf_prove (rd m (rp_vrf p)) key in
    let '(pf, m) := make pf m in
    let '(i, m) := make i m in
    (i, pf, m).
  (** merkletree/pad.go:106-108 [Set] *)
  Definition r_PAD_Set (p : rPAD) (r : option bytes) (key : bytes) (value : gs) (m : mem) : result (option rPAD * mem) :=
    let '(i, _, m) := r_index p key m in
    do (o, m) <- r_Set (rp_tree p) r i key value m;
    Ok (option_map (fun t => mkRPAD (rp_sign p) (rp_vrf p) t (rp_snap p) (rp_loaded p) (rp_cap p) (rp_latest p) (rp_ad p)) o, m).
  (** merkletree/pad.go:138-143 [GetSTR] *)
  Definition r_GetSTR (p : rPAD) (epoch : N) : option rSTR :=
    if N.leb (rs_epoch (rp_latest p)) epoch then Some (rp_latest p) else map_get N.eqb epoch (rp_snap p).
  (** merkletree/pad.go:122-133 [LookupInEpoch] *)
  Definition r_LookupInEpoch (p : rPAD) (key : bytes) (epoch : N) (m : mem) : result (option rAP * mem) :=
    match r_GetSTR p epoch with
    | None => Ok (None, m)
    | Some s =>
        let '(i, pf, m) := r_index p key m in
        do (ap, m) <- r_Get (rs_tree s) i m;
        Ok (Some (mkRAP (ra_nonce ap) (ra_pruned ap) (ra_lookup ap) pf (ra_leaf ap)), m)
    end.
  (** merkletree/pad.go:113-115 [Lookup] *)
  Definition r_Lookup (p : rPAD) (key : bytes) (m : mem) : result (option rAP * mem) :=
    r_LookupInEpoch p key (rs_epoch (rp_latest p)) m.

  (** ** The directory *)

  (** protocol/tb.go:17-21 *)
  Record rTB := mkRTB { rb_index : gs; rb_value : gs; rb_sig : gs }.
  (** protocol/directory/directory.go:27-32 *)
  Record rDir := mkRDir { rd_pad : rPAD; rd_useTBs : bool; rd_tbs : list (bytes * rTB); rd_pol : rpol }.
  (** protocol/message.go:104-156: answers refer to paths, signed tree roots and
      temporary bindings *)
  Inductive rResp :=
  | RErr (e : ErrorCode)
  | RProof (e : ErrorCode) (aps : list rAP) (strs : list rSTR) (tb : option rTB)
  | RHistory (strs : list rSTR).

  (** protocol/directory/directory.go:42-64 [New]; the public VRF key is a new slice *)
  Definition r_Dir_New (deadline : N) (vrfKey signKey : gs) (dirSize : nat) (useTBs : bool) (r1 r2 : option bytes) (m : mem)
    : result (rDir * mem) :=
    if useTBs then
      let '(pk, m) := make (vrf_pub (rd m vrfKey)) m in
      let pol := mkRPol Version HashID pk deadline in
      do o <- r_NewPAD pol signKey vrfKey dirSize r1 r2 m;
      match o with
      | None => Panic
      | Some (pad, m) => Ok (mkRDir pad useTBs [] pol, m)
      end
    else Panic.
  (** protocol/directory/directory.go:70-76 [Update] *)
  Definition r_Dir_Update (d : rDir) (m : mem) : rDir * mem :=
    let '(pad, m) := r_Update (rd_pad d) (Some (rd_pol d)) m in
    (mkRDir pad (rd_useTBs d) [] (rd_pol d), m).
  (** protocol/directory/directory.go:80-82 [SetPolicies] *)
  Definition r_SetPolicies (d : rDir) (deadline : N) : rDir :=
    mkRDir (rd_pad d) (rd_useTBs d) (rd_tbs d) (mkRPol Version HashID (rq_vrf (rd_pol d)) deadline).
  (** protocol/directory/directory.go:98-105 [NewTB] with merkletree/pad.go:151-153: the
      binding keeps the key slice as it is passed *)
  Definition r_NewTB (d : rDir) (name : bytes) (key : gs) (m : mem) : rTB * mem :=
    let '(i, _, m) := r_index (rd_pad d) name m in
    let '(j, m) := make (concat [rd m (rs_sig (rp_latest (rd_pad d))); rd m i; rd m key]) m in
    let '(sig, m) := make (sign_sign (rd m (rp_sign (rd_pad d))) (rd m j)) m in
    (mkRTB i key sig, m).
  (** protocol/directory/directory.go:141, 199, 257 *)
  Definition r_matches (ap : rAP) (m : mem) : result bool :=
    match ra_leaf ap with
    | None => Panic
    | Some leaf => Ok (beq (rd m (ra_lookup ap)) (rd m (rn_index leaf)))
    end.
  (** protocol/directory/directory.go:129-165 [Register] *)
  Definition r_Register (d : rDir) (r : option bytes) (name : bytes) (key : gs) (m : mem) : result (rDir * rResp * mem) :=
    if is_nil name || is_nil (rd m key) then Ok (d, RErr ErrMalformedMessage, m)
    else
      do (o, m) <- r_Lookup (rd_pad d) name m;
      match o with
      | None => Ok (d, RErr ErrDirectory, m)
      | Some ap =>
          do found <- r_matches ap m;
          if found : bool then Ok (d, RProof ReqNameExisted [ap] [rp_latest (rd_pad d)] None, m)
          else
            match (if rd_useTBs d then map_get beq name (rd_tbs d) else None) with
            | Some tb => Ok (d, RProof ReqNameExisted [ap] [rp_latest (rd_pad d)] (Some tb), m)
            | None =>
                let '(tb, m) := if rd_useTBs d then let '(tb, m) := r_NewTB d name key m in (Some tb, m) else (None, m) in
                do (o, m) <- r_PAD_Set (rd_pad d) r name key m;
                match o with
                | None => Ok (d, RErr ErrDirectory, m)
                | Some pad =>
                    let tbs := match tb with Some tb => map_set beq name tb (rd_tbs d) | None => rd_tbs d end in
                    Ok (mkRDir pad (rd_useTBs d) tbs (rd_pol d), RProof ReqSuccess [ap] [rp_latest pad] tb, m)
                end
            end
      end.
  (** protocol/directory/directory.go:187-209 [KeyLookup] *)
  Definition r_KeyLookup (d : rDir) (name : bytes) (m : mem) : result (rResp * mem) :=
    if is_nil name then Ok (RErr ErrMalformedMessage, m)
    else
      do (o, m) <- r_Lookup (rd_pad d) name m;
      match o with
      | None => Ok (RErr ErrDirectory, m)
      | Some ap =>
          do found <- r_matches ap m;
          if found : bool then Ok (RProof ReqSuccess [ap] [rp_latest (rd_pad d)] None, m)
          else
            match (if rd_useTBs d then map_get beq name (rd_tbs d) else None) with
            | Some tb => Ok (RProof ReqSuccess [ap] [rp_latest (rd_pad d)] (Some tb), m)
            | None => Ok (RProof ReqNameNotFound [ap] [rp_latest (rd_pad d)] None, m)
            end
      end.
  (** protocol/str.go:13-18 on a possibly nil pointer *)
  Definition r_str (o : option rSTR) : result rSTR := match o with None => Panic | Some s => Ok s end.
  (** protocol/directory/directory.go:236-261 [KeyLookupInEpoch] *)
  Definition r_KeyLookupInEpoch (d : rDir) (name : bytes) (epoch : N) (m : mem) : result (rResp * mem) :=
    let latest := rs_epoch (rp_latest (rd_pad d)) in
    if is_nil name || N.ltb latest epoch then Ok (RErr ErrMalformedMessage, m)
    else
      do (o, m) <- r_LookupInEpoch (rd_pad d) name epoch m;
      match o with
      | None => Ok (RErr ErrDirectory, m)
      | Some ap =>
          do eps <- epochs epoch latest;
          do strs <- mapM (fun ep => r_str (r_GetSTR (rd_pad d) ep)) eps;
          do found <- r_matches ap m;
          Ok (RProof (if found : bool then ReqSuccess else ReqNameNotFound) [ap] strs None, m)
      end.
  (** protocol/directory/directory.go:296-305 *)
  Fixpoint r_monitor_loop (d : rDir) (name : bytes) (eps : list N) (m : mem) : result (option (list rAP * list rSTR) * mem) :=
    match eps with
    | [] => Ok (Some ([], []), m)
    | ep :: eps' =>
        do (o, m) <- r_LookupInEpoch (rd_pad d) name ep m;
        match o with
        | None => Ok (None, m)
        | Some ap =>
            do s <- r_str (r_GetSTR (rd_pad d) ep);
            do (o', m) <- r_monitor_loop d name eps' m;
            Ok (option_map (fun p => (ap :: fst p, s :: snd p)) o', m)
        end
    end.
  (** protocol/directory/directory.go:281-308 [Monitor] *)
  Definition r_Monitor (d : rDir) (name : bytes) (startEpoch endEpoch : N) (m : mem) : result (rResp * mem) :=
    let latest := rs_epoch (rp_latest (rd_pad d)) in
    if is_nil name || N.ltb latest startEpoch || N.ltb endEpoch startEpoch then Ok (RErr ErrMalformedMessage, m)
    else
      let endEp := if N.ltb latest endEpoch then latest else endEpoch in
      do eps <- epochs startEpoch endEp;
      do (o, m) <- r_monitor_loop d name eps m;
      Ok (match o with None => RErr ErrDirectory | Some (aps, strs) => RProof ReqSuccess aps strs None end, m).
  (** protocol/directory/directory.go:326-345 [GetSTRHistory] *)
  Definition r_GetSTRHistory (d : rDir) (startEpoch endEpoch : N) (m : mem) : result (rResp * mem) :=
    let latest := rs_epoch (rp_latest (rd_pad d)) in
    if N.ltb latest startEpoch || N.ltb endEpoch startEpoch then Ok (RErr ErrMalformedMessage, m)
    else
      let endEp := if N.ltb latest endEpoch then latest else endEpoch in
      do eps <- epochs startEpoch endEp;
      do strs <- mapM (fun ep => r_str (r_GetSTR (rd_pad d) ep)) eps;
      Ok (RHistory strs, m).

  (** ** What the slices show: the objects of Tree.v, STR.v, PAD.v and Directory.v *)

  (** no line of its own in /repo: reading a structure through its slices *)
  Definition v_hash (m : mem) (s : gs) : option bytes := option_map (fun s => rd m (Some s)) s.
  (** no line of its own in /repo: reading a structure through its slices *)
  Definition v_leaf (m : mem) (d : rleaf) : leafdata :=
    mkLeaf (rl_key d) (rd m (rl_value d)) (rd m (rl_index d)) (mkCommit (rd m (rl_salt d)) (rd m (rl_com d))).
  (** no line of its own in /repo: reading a structure through its slices *)
  Fixpoint v_node (m : mem) (n : rnode) : node :=
    match n with
    | REmpty lvl i => Empty lvl (rd m i)
    | RLeaf lvl d => Leaf lvl (v_leaf m d)
    | RInt lvl lh rh l r => Interior lvl (v_hash m lh) (v_hash m rh) (v_node m l) (v_node m r)
    end.
  (** no line of its own in /repo: reading a structure through its slices *)
  Definition v_tree (m : mem) (t : rtree) : MerkleTree := mkTree (rd m (rt_nonce t)) (v_node m (rt_root t)) (rd m (rt_hash t)).
  (** no line of its own in /repo: reading a structure through its slices *)
  Definition v_pn (m : mem) (n : rPN) : ProofNode :=
    mkPN (rn_level n) (rd m (rn_index n)) (v_hash m (rn_value n)) (rn_empty n)
      (option_map (fun c => mkCommit (rd m (fst c)) (rd m (snd c))) (rn_com n)).
  (** no line of its own in /repo: reading a structure through its slices *)
  Definition v_ap (m : mem) (a : rAP) : AuthPath :=
    mkAP (rd m (ra_nonce a)) (ra_pruned a) (rd m (ra_lookup a)) (rd m (ra_vrf a)) (option_map (v_pn m) (ra_leaf a)).
  (** no line of its own in /repo: reading a structure through its slices *)
  Definition v_pol (m : mem) (p : rpol) : Policies := mkPol (rq_version p) (rq_hashid p) (rd m (rq_vrf p)) (rq_deadline p).
  (** no line of its own in /repo: reading a structure through its slices *)
  Definition v_str (m : mem) (s : rSTR) : SignedTreeRoot Policies :=
    mkSTR (v_tree m (rs_tree s)) (mkBody (rd m (rs_hash s)) (rs_epoch s) (rs_pepoch s) (rd m (rs_phash s)) (rd m (rs_sig s)))
      (v_pol m (rs_ad s)).
  (** no line of its own in /repo: reading a structure through its slices *)
  Definition v_snap (m : mem) (l : list (N * rSTR)) : list (N * SignedTreeRoot Policies) := map (fun x => (fst x, v_str m (snd x))) l.
  (** no line of its own in /repo: reading a structure through its slices *)
  Definition v_pad (m : mem) (p : rPAD) : PAD Policies :=
    mkPAD (rd m (rp_sign p)) (rd m (rp_vrf p)) (v_tree m (rp_tree p)) (v_snap m (rp_snap p)) (rp_loaded p) (rp_cap p)
      (v_str m (rp_latest p)) (v_pol m (rp_ad p)).
  (** no line of its own in /repo: reading a structure through its slices *)
  Definition v_tb (m : mem) (b : rTB) : TemporaryBinding := mkTB (rd m (rb_index b)) (rd m (rb_value b)) (rd m (rb_sig b)).
  (** no line of its own in /repo: reading a structure through its slices *)
  Definition v_tbs (m : mem) (l : list (bytes * rTB)) : list (bytes * TemporaryBinding) := map (fun x => (fst x, v_tb m (snd x))) l.
  (** no line of its own in /repo: reading a structure through its slices *)
  Definition v_dir (m : mem) (d : rDir) : Directory :=
    mkDirectory (v_pad m (rd_pad d)) (rd_useTBs d) (v_tbs m (rd_tbs d)) (v_pol m (rd_pol d)).
  (** What is marshalled for the client (application/serverbase.go:241-250), after the
      lock was released. *)
  Definition v_resp (m : mem) (r : rResp) : Response :=
    match r with
    | RErr e => NewErrorResponse e
    | RProof e aps strs tb =>
        mkResp e (Some (DProof (Some (mkDP (map (fun a => Some (v_ap m a)) aps) (map (fun s => Some (NewDirSTR (v_str m s))) strs)
                                           (option_map (v_tb m) tb)))))
    | RHistory strs => NewSTRHistoryRange (map (fun s => Some (NewDirSTR (v_str m s))) strs)
    end.

  (** ** The slices in a structure *)

  (** no line of its own in /repo: the slices a structure refers to *)
  Definition ss_leaf (d : rleaf) : list gs := [rl_value d; rl_index d; rl_salt d; rl_com d].
  (** no line of its own in /repo: the slices a structure refers to *)
  Fixpoint ss_node (n : rnode) : list gs :=
    match n with
    | REmpty _ i => [i]
    | RLeaf _ d => ss_leaf d
    | RInt _ lh rh l r => lh :: rh :: ss_node l ++ ss_node r
    end.
  (** no line of its own in /repo: the slices a structure refers to *)
  Definition ss_tree (t : rtree) : list gs := rt_nonce t :: rt_hash t :: ss_node (rt_root t).
  (** no line of its own in /repo: the slices a structure refers to *)
  Definition ss_pn (n : rPN) : list gs :=
    rn_index n :: rn_value n :: match rn_com n with Some c => [fst c; snd c] | None => [] end.
  (** no line of its own in /repo: the slices a structure refers to *)
  Definition ss_ap (a : rAP) : list gs :=
    ra_nonce a :: ra_lookup a :: ra_vrf a :: match ra_leaf a with Some n => ss_pn n | None => [] end.
  (** no line of its own in /repo: the slices a structure refers to *)
  Definition ss_str (s : rSTR) : list gs := rs_hash s :: rs_phash s :: rs_sig s :: rq_vrf (rs_ad s) :: ss_tree (rs_tree s).
  (** no line of its own in /repo: the slices a structure refers to *)
  Definition ss_pad (p : rPAD) : list gs :=
    rp_sign p :: rp_vrf p :: rq_vrf (rp_ad p) :: ss_tree (rp_tree p) ++ ss_str (rp_latest p) ++ flat_map (fun x => ss_str (snd x)) (rp_snap p).
  (** no line of its own in /repo: the slices a structure refers to *)
  Definition ss_tb (b : rTB) : list gs := [rb_index b; rb_value b; rb_sig b].
  (** no line of its own in /repo: the slices a structure refers to *)
  Definition ss_dir (d : rDir) : list gs :=
    rq_vrf (rd_pol d) :: ss_pad (rd_pad d) ++ flat_map (fun x => ss_tb (snd x)) (rd_tbs d).
  (** no line of its own in /repo: the slices a structure refers to *)
  Definition ss_resp (r : rResp) : list gs :=
    match r with
    | RErr _ => []
    | RProof _ aps strs tb => flat_map ss_ap aps ++ flat_map ss_str strs ++ match tb with Some b => ss_tb b | None => [] end
    | RHistory strs => flat_map ss_str strs
    end.
  (** The arrays behind slices. *)
  (** no line of its own in /repo: the arrays behind slices *)
  Definition arrays (l : list gs) : list nat := flat_map (fun s => match s with Some s => [sa s] | None => [] end) l.
End Slices.
