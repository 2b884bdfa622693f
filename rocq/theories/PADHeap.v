(** Pointer-level model of the dictionary: merkletree/pad.go and merkletree/str.go
    on top of TreeHeap.v.  Tree nodes, tree objects and signed tree roots live in
    memory and are shared by reference; [loadedEpochs] is a slice over an array
    that is overwritten in place.  PAD.v has the same functions on values. *)
From Coq Require Import List NArith Lia Bool Arith.
From Verif Require Import Base Utils Crypto Tree TreeSpec STR PAD PADSpec TreeHeap.
Import ListNotations.

(** ** Slices of epochs *)

(** A slice that starts at the beginning of its array: the array (its length is
    the capacity) and the length of the slice. *)
(** Go slices: merkletree/pad.go:28 (loadedEpochs) *)
Record slice := mkSlice { sl_array : list N; sl_len : nat }.
(** Go slices: merkletree/pad.go:28 *)
Definition elements (s : slice) : list N := firstn (sl_len s) (sl_array s).
(** [make([]uint64, 0, len)] *)
(** merkletree/pad.go:50 *)
Definition make_slice (len : nat) : slice := mkSlice (repeat 0%N len) 0.
(** [append] of one element: in place if there is room, otherwise into a new
    array (its capacity: [grow] of PAD.v). *)
(** merkletree/pad.go:78 *)
Definition append1 (s : slice) (e : N) : slice :=
  let cap := length (sl_array s) in
  if Nat.ltb (sl_len s) cap then mkSlice (set_nth (sl_array s) (sl_len s) e) (S (sl_len s))
  else mkSlice (elements s ++ e :: repeat 0%N (grow (sl_len s) cap - S (sl_len s))) (S (sl_len s)).
(** [append(s[:0], s[n:]...)]: the elements move to the front of the same array,
    one after the other, the rest of the array keeps its contents. *)
Fixpoint move (arr : list N) (from to count : nat) : list N :=
  match count with
  | O => arr
  | S count' => move (set_nth arr to (nth from arr 0%N)) (S from) (S to) count'
  end.
(** merkletree/pad.go:92-98 *)
Definition drop_front (s : slice) (n : nat) : slice :=
  mkSlice (move (sl_array s) n 0 (sl_len s - n)) (sl_len s - n).

Section PADHeap.
  Context {C : Crypto} {A : Type} (ser : A -> bytes).

  (** merkletree/str.go:23-31: a signed tree root; its tree is a pointer. *)
  Record hstr := mkHStr { hs_tree : nat; hs_body : STRBody; hs_ad : A }.
  (** Memory: nodes, tree objects, signed tree roots; pointers are positions. *)
  (** memory for merkletree/pad.go:23-31 *)
  Record memory := mkMem { m_forest : heap * list htree; m_strs : list hstr }.
  (** merkletree/pad.go:23-31 *)
  Record hPAD := mkHPAD {
    hp_mem : memory; hp_sign : bytes; hp_vrf : bytes; hp_tree : nat;
    hp_snap : list (N * nat); hp_loaded : slice; hp_latest : nat; hp_ad : A }.

  (** merkletree/pad.go:66-70 and str.go:36-52: the tree is rehashed in place and
      cloned, and the new signed tree root refers to the clone. *)
  Definition h_sign_root (m : memory) (sign : bytes) (ad : A) (tree : nat) (epoch : N) (prevHash : bytes)
    : result (memory * nat) :=
    do f1 <- hstep (m_forest m) (FRehash tree);
    do f2 <- hstep f1 (FClone tree);
    let clone := length (snd f1) in
    do t <- index (snd f2) clone;
    let prevEpoch := if N.eqb epoch 0 then 0%N else (epoch - 1)%N in
    let unsigned := mkBody (ht_hash t) epoch prevEpoch prevHash [] in
    let sig := sign_sign sign (STR_Serialize ser unsigned ad) in
    let str := mkHStr clone (mkBody (ht_hash t) epoch prevEpoch prevHash sig) ad in
    Ok (mkMem f2 (m_strs m ++ [str]), length (m_strs m)).

  (** merkletree/pad.go:36-53 [NewPAD] *)
  Definition h_NewPAD (ad : A) (sign vrf : bytes) (len : nat) (r1 r2 : option bytes) : result (option hPAD) :=
    match MakeRand r1 with
    | None => Ok None
    | Some _ =>
        do f <- hstep ([], []) (FNew r1);
        match MakeRand r2 with
        | None => Panic
        | Some prevHash =>
            do (m, str) <- h_sign_root (mkMem f []) sign ad 0 0 prevHash;
            Ok (Some (mkHPAD m sign vrf 0 (map_set N.eqb 0%N str []) (append1 (make_slice len) 0%N) str ad))
        end
    end.

  (** merkletree/pad.go:90-98 *)
  Definition h_evict (p : hPAD) : list (N * nat) * slice :=
    let s := hp_loaded p in
    let cap := length (sl_array s) in
    if Nat.eqb (sl_len s) cap then
      let n := cap / 2 in
      (fold_left (fun m i => map_del N.eqb (nth i (sl_array s) 0%N) m) (seq 0 n) (hp_snap p), drop_front s n)
    else (hp_snap p, s).
  (** merkletree/pad.go:73-100 [Update] *)
  Definition h_Update (p : hPAD) (ad : option A) : result hPAD :=
    let '(snap, loaded) := h_evict p in
    do latest <- index (m_strs (hp_mem p)) (hp_latest p);
    let epoch := add64 (s_epoch (hs_body latest)) 1 in
    let prevHash := Digest [s_sig (hs_body latest)] in
    do (m, str) <- h_sign_root (hp_mem p) (hp_sign p) (hp_ad p) (hp_tree p) epoch prevHash;
    Ok (mkHPAD m (hp_sign p) (hp_vrf p) (hp_tree p) (map_set N.eqb epoch str snap) (append1 loaded epoch) str
          (match ad with Some ad => ad | None => hp_ad p end)).
  (** merkletree/pad.go:106-108 [Set]; the Boolean: no error *)
  Definition h_Set (p : hPAD) (r : option bytes) (key value : bytes) : result (hPAD * bool) :=
    do f <- hstep (m_forest (hp_mem p)) (FSet (hp_tree p) r (fst (vrf_prove (hp_vrf p) key)) key value);
    Ok (mkHPAD (mkMem f (m_strs (hp_mem p))) (hp_sign p) (hp_vrf p) (hp_tree p) (hp_snap p) (hp_loaded p) (hp_latest p) (hp_ad p),
        match NewCommit r [key; value] with Some _ => true | None => false end).

  (** merkletree/pad.go:138-143 [GetSTR]: a pointer, [None] is nil *)
  Definition h_GetSTR (p : hPAD) (epoch : N) : result (option nat) :=
    do latest <- index (m_strs (hp_mem p)) (hp_latest p);
    Ok (if N.leb (s_epoch (hs_body latest)) epoch then Some (hp_latest p) else map_get N.eqb epoch (hp_snap p)).
  (** [str.tree.Get(lookupIndex)] through a pointer to a signed tree root *)
  (** merkletree/str.go:23-31 *)
  Definition h_str_get (m : memory) (str : nat) (lookup : bytes) : result AuthPath :=
    do s <- index (m_strs m) str;
    do t <- index (snd (m_forest m)) (hs_tree s);
    h_get (fst (m_forest m)) t lookup.
  (** merkletree/pad.go:122-133 [LookupInEpoch] *)
  Definition h_LookupInEpoch (p : hPAD) (key : bytes) (epoch : N) : result (option AuthPath) :=
    do o <- h_GetSTR p epoch;
    match o with
    | None => Ok None
    | Some str =>
        let '(lookup, proof) := vrf_prove (hp_vrf p) key in
        do ap <- h_str_get (hp_mem p) str lookup;
        Ok (Some (mkAP (ap_nonce ap) (ap_pruned ap) (ap_lookup ap) proof (ap_leaf ap)))
    end.
  (** merkletree/pad.go:113-115 [Lookup] *)
  Definition h_Lookup (p : hPAD) (key : bytes) : result (option AuthPath) :=
    do latest <- index (m_strs (hp_mem p)) (hp_latest p);
    h_LookupInEpoch p key (s_epoch (hs_body latest)).

  (** Histories of calls (PADSpec.v) on pointers *)
  (** programs calling merkletree/pad.go:36-177 *)
  Definition h_step (p : hPAD) (op : pad_op A) : result hPAD :=
    match op with
    | PSet r key value => do (p', _) <- h_Set p r key value; Ok p'
    | PUpdate ad => h_Update p ad
    end.
  (** programs calling merkletree/pad.go:36-177 *)
  Fixpoint h_run (p : hPAD) (ops : list (pad_op A)) : result hPAD :=
    match ops with [] => Ok p | op :: ops' => do p' <- h_step p op; h_run p' ops' end.
End PADHeap.
Arguments hPAD A : clear implicits.
Arguments hstr A : clear implicits.
Arguments memory A : clear implicits.
