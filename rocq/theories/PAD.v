(** Model of the persistent authenticated dictionary: merkletree/pad.go. *)
From Coq Require Import List NArith Lia Bool Arith.
From Verif Require Import Base Utils Crypto Tree STR.
Import ListNotations.

Section PAD.
  Context {C : Crypto} {A : Type} (ser : A -> bytes).

  (** merkletree/pad.go:23-31.  [pd_cap] is the capacity of the slice
      [loadedEpochs].  The latest STR is never nil once [NewPAD] returned. *)
  Record PAD := mkPAD {
    pd_sign : bytes; pd_vrf : bytes; pd_tree : MerkleTree;
    pd_snap : list (N * SignedTreeRoot A); pd_loaded : list N; pd_cap : nat;
    pd_latest : SignedTreeRoot A; pd_ad : A }.

  (** Capacity after Go's [append] of one element to a slice of length [len] and
      capacity [cap]: doubles when full (the only growth steps that can occur
      here are 0 to 1 and 1 to 2, exact in the Go runtime). *)
  (** the capacity chosen by Go's append at merkletree/pad.go:78 *)
  Definition grow (len cap : nat) : nat :=
    if Nat.ltb len cap then cap else if Nat.eqb cap 0 then 1 else 2 * cap.

  (** merkletree/pad.go:66-70: the STR of the next epoch and the rehashed tree. *)
  Definition signTreeRoot (sign : bytes) (ad : A) (tree : MerkleTree) (epoch : N) (prevHash : bytes)
    : MerkleTree * SignedTreeRoot A :=
    let tree := recomputeHash tree in
    (tree, NewSTR ser sign ad (Clone tree) epoch prevHash).

  (** merkletree/pad.go:36-53 [NewPAD]: [r1] is the entropy for the tree nonce,
      [r2] that for the first previous-STR hash (55-65).  [Ok None] is a
      returned error; running out of entropy for [r2] panics. *)
  Definition NewPAD (ad : A) (sign vrf : bytes) (len : nat) (r1 r2 : option bytes) : result (option PAD) :=
    match NewMerkleTree r1 with
    | None => Ok None
    | Some tree =>
        match MakeRand r2 with
        | None => Panic
        | Some prevHash =>
            let '(tree, str) := signTreeRoot sign ad tree 0 prevHash in
            Ok (Some (mkPAD sign vrf tree (map_set N.eqb 0%N str []) [0%N] (grow 0 len) str ad))
        end
    end.

  (** merkletree/pad.go:90-98: eviction of the older half when the slice is
      full. *)
  Definition evict (p : PAD) : list (N * SignedTreeRoot A) * list N :=
    if Nat.eqb (length (pd_loaded p)) (pd_cap p) then
      let n := pd_cap p / 2 in
      (fold_left (fun s e => map_del N.eqb e s) (firstn n (pd_loaded p)) (pd_snap p),
       skipn n (pd_loaded p))
    else (pd_snap p, pd_loaded p).

  (** merkletree/pad.go:73-100 [Update] and [updateInternal] *)
  Definition Update (p : PAD) (ad : option A) : PAD :=
    let '(snap, loaded) := evict p in
    let epoch := add64 (s_epoch (st_body (pd_latest p))) 1 in
    let prevHash := Digest [s_sig (st_body (pd_latest p))] in
    let '(tree, str) := signTreeRoot (pd_sign p) (pd_ad p) (pd_tree p) epoch prevHash in
    mkPAD (pd_sign p) (pd_vrf p) tree (map_set N.eqb epoch str snap) (loaded ++ [epoch])
      (grow (length loaded) (pd_cap p)) str
      (match ad with Some ad => ad | None => pd_ad p end).

  (** merkletree/pad.go:157-160,179-182 [Index] *)
  Definition Index (p : PAD) (key : bytes) : bytes := fst (vrf_prove (pd_vrf p) key).

  (** merkletree/pad.go:106-108 [Set] *)
  Definition PAD_Set (p : PAD) (r : option bytes) (key value : bytes) : result (option PAD) :=
    do o <- Set_ (pd_tree p) r (Index p key) key value;
    Ok (option_map (fun t => mkPAD (pd_sign p) (pd_vrf p) t (pd_snap p) (pd_loaded p) (pd_cap p)
                               (pd_latest p) (pd_ad p)) o).

  (** merkletree/pad.go:138-143 [GetSTR] *)
  Definition GetSTR (p : PAD) (epoch : N) : option (SignedTreeRoot A) :=
    if N.leb (s_epoch (st_body (pd_latest p))) epoch then Some (pd_latest p)
    else map_get N.eqb epoch (pd_snap p).

  (** merkletree/pad.go:122-133 [LookupInEpoch]; [Ok None] is ErrSTRNotFound *)
  Definition LookupInEpoch (p : PAD) (key : bytes) (epoch : N) : result (option AuthPath) :=
    match GetSTR p epoch with
    | None => Ok None
    | Some str =>
        let '(lookup, proof) := vrf_prove (pd_vrf p) key in
        do ap <- Get (st_tree str) lookup;
        Ok (Some (mkAP (ap_nonce ap) (ap_pruned ap) (ap_lookup ap) proof (ap_leaf ap)))
    end.

  (** merkletree/pad.go:113-115 [Lookup] *)
  Definition Lookup (p : PAD) (key : bytes) : result (option AuthPath) :=
    LookupInEpoch p key (s_epoch (st_body (pd_latest p))).

  (** merkletree/pad.go:151-153 [Sign] *)
  Definition PAD_Sign (p : PAD) (msg : list bytes) : bytes := sign_sign (pd_sign p) (concat msg).

  (** merkletree/pad.go:166-177 [reshuffle]: [rs] supplies the entropy of the
      commitments, in the order of the leaves; a failure panics. *)
  Fixpoint reshuffle_loop (p : PAD) (ds : list leafdata) (rs : list (option bytes)) (t : MerkleTree)
    : result MerkleTree :=
    match ds, rs with
    | [], _ => Ok t
    | _ :: _, [] => Panic
    | d :: ds', r :: rs' =>
        do o <- Set_ t r (Index p (l_key d)) (l_key d) (l_value d);
        match o with
        | None => Panic
        | Some t' => reshuffle_loop p ds' rs' t'
        end
    end.
  (** merkletree/pad.go:166-177 *)
  Definition reshuffle (p : PAD) (r : option bytes) (rs : list (option bytes)) : result PAD :=
    match NewMerkleTree r with
    | None => Panic
    | Some t0 =>
        do t <- reshuffle_loop p (leaves (t_root (pd_tree p))) rs t0;
        Ok (mkPAD (pd_sign p) (pd_vrf p) t (pd_snap p) (pd_loaded p) (pd_cap p) (pd_latest p) (pd_ad p))
    end.
End PAD.
Arguments PAD A : clear implicits.
