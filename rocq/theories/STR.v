(** Model of signed tree roots: merkletree/str.go, protocol/policy.go,
    protocol/str.go. *)
From Coq Require Import List NArith Lia Bool Arith.
From Verif Require Import Base Utils Crypto Tree.
Import ListNotations.

(** protocol/policy.go:19-24.  [EpochDeadline] is a uint64. *)
Record Policies := mkPol {
  pol_version : bytes; pol_hashid : bytes; pol_vrf : bytes; pol_deadline : N }.

(** protocol/version.go:5 "0.3" and crypto/util.go:14 "SHAKE128" *)
Definition Version : bytes := [x30; x2e; x33].
(** crypto/util.go:10-15 *)
Definition HashID : bytes := [x53; x48; x41; x4b; x45; x31; x32; x38].

(** protocol/policy.go:29-36 [NewPolicies] *)
Definition NewPolicies (deadline : N) (vrf : bytes) : Policies :=
  mkPol Version HashID vrf deadline.

(** protocol/policy.go:43-50 [Serialize] *)
Definition Policies_Serialize (p : Policies) : bytes :=
  pol_version p ++ pol_hashid p ++ pol_vrf p ++ ULongToBytes (pol_deadline p).

(** merkletree/str.go:23-31: the exported fields of [SignedTreeRoot], that is
    everything but the snapshot tree and the associated data. *)
Record STRBody := mkBody {
  s_hash : bytes; s_epoch : N; s_pepoch : N; s_phash : bytes; s_sig : bytes }.

(** merkletree/str.go:66-75 [SerializeInternal] *)
Definition SerializeInternal (b : STRBody) : bytes :=
  ULongToBytes (s_epoch b) ++
  (if N.ltb 0 (s_epoch b) then ULongToBytes (s_pepoch b) else []) ++
  s_hash b ++ s_phash b.

(** merkletree/str.go:81-86 [VerifyHashChain]; uint64 addition wraps. *)
Definition VerifyHashChain {C : Crypto} (str saved : STRBody) : bool :=
  N.eqb (s_pepoch str) (s_epoch saved) &&
  N.eqb (s_epoch str) (add64 (s_epoch saved) 1) &&
  beq (Digest [s_sig saved]) (s_phash str).

(** merkletree/str.go:23-31: a server-side signed tree root.  The associated
    data [ad] is polymorphic as in the code ([AssocData] interface). *)
Record SignedTreeRoot (A : Type) := mkSTR { st_tree : MerkleTree; st_body : STRBody; st_ad : A }.
Arguments mkSTR {A}.
Arguments st_tree {A}. Arguments st_body {A}. Arguments st_ad {A}.

(** merkletree/str.go:60-62 [Serialize] *)
Definition STR_Serialize {A} (ser : A -> bytes) (b : STRBody) (ad : A) : bytes :=
  SerializeInternal b ++ ser ad.

(** merkletree/str.go:36-52 [NewSTR] *)
Definition NewSTR {C : Crypto} {A} (ser : A -> bytes) (key : bytes) (ad : A) (m : MerkleTree)
  (epoch : N) (prevHash : bytes) : SignedTreeRoot A :=
  let prevEpoch := if N.eqb epoch 0 then 0%N else (epoch - 1)%N in
  let unsigned := mkBody (t_hash m) epoch prevEpoch prevHash [] in
  let sig := sign_sign key (STR_Serialize ser unsigned ad) in
  mkSTR m (mkBody (t_hash m) epoch prevEpoch prevHash sig) ad.

(** protocol/str.go:7-10 [DirSTR] as it travels: the embedded pointer to the
    signed tree root and the policies pointer may be nil after decoding. *)
Record DirSTR := mkDir { d_body : option STRBody; d_pol : option Policies }.

(** protocol/str.go:13-18 [NewDirSTR] for a non-nil argument.  The tree pointer
    and [Ad] are dropped: they are not exported to other packages, except that
    [reflect.DeepEqual] also looks at them (see Auditor.v). *)
Definition NewDirSTR (s : SignedTreeRoot Policies) : DirSTR :=
  mkDir (Some (st_body s)) (Some (st_ad s)).

(** protocol/str.go:21-23 [Serialize] *)
Definition DirSTR_Serialize (s : DirSTR) : result bytes :=
  match d_body s, d_pol s with
  | Some b, Some p => Ok (STR_Serialize Policies_Serialize b p)
  | _, _ => Panic
  end.

(** protocol/str.go:26-28 [VerifyHashChain] *)
Definition DirSTR_VerifyHashChain {C : Crypto} (s saved : DirSTR) : result bool :=
  match d_body s, d_body saved with
  | Some b, Some b' => Ok (VerifyHashChain b b')
  | _, _ => Panic
  end.
