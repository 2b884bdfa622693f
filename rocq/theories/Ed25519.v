(** The signature scheme behind crypto/sign: Ed25519.

    crypto/sign/sign.go only wraps golang.org/x/crypto/ed25519, which is outside
    the repository.  That package is written on the same edwards25519 arithmetic
    that the repository carries a copy of for its VRF, so it is written down here
    (after RFC 8032, 5.1, and the package's documentation) with the model of that
    copy.  SHA-512 is a parameter.  [strict] says whether [Verify] refuses an s
    that is not below the group order, which depends on the version of the package.
    Keys of a wrong length make the package panic; the callers check lengths
    (application/config.go, application/server/config.go). *)
From Coq Require Import List NArith ZArith Bool Arith.
From Verif Require Import Base Extra25519 GoInt Field FieldSpec Scalar EdConst Group VRF.
Import ListNotations.
Local Open Scope Z_scope.

Section Ed25519.
  Variable sha : bytes -> bytes.
  Variable strict : bool.

  (** crypto/sign/sign.go:35-42, the secret scalar and the prefix (RFC 8032, 5.1.5) *)
  Definition ed_scalar (seed : bytes) : bytes := clamp (firstn 32 (sha seed)).
  (** crypto/sign/sign.go:46-49, the prefix (RFC 8032, 5.1.5) *)
  Definition ed_prefix (seed : bytes) : bytes := skipn 32 (sha seed).
  (** crypto/sign/sign.go:35-42 [GenerateKey], from the 32 bytes read from [rnd] *)
  Definition ed_key (seed : bytes) : bytes := seed ++ ext_ToBytes (GeScalarMultBase (ed_scalar seed)).
  (** crypto/sign/sign.go:55-58 [Public] *)
  Definition ed_public (sk : bytes) : bytes := skipn 32 sk.
  (** crypto/sign/sign.go:46-49 [Sign] (RFC 8032, 5.1.6) *)
  Definition ed_sign (sk m : bytes) : bytes :=
    let seed := firstn 32 sk in
    let r := ScReduce (sha (ed_prefix seed ++ m)) in
    let R := ext_ToBytes (GeScalarMultBase r) in
    let k := ScReduce (sha (R ++ skipn 32 sk ++ m)) in
    R ++ ScMulAdd k (ed_scalar seed) r.
  (** crypto/sign/sign.go:63-65 [Verify] (RFC 8032, 5.1.7, without the cofactor) *)
  Definition ed_verify (pk m sig : bytes) : bool :=
    if negb (Nat.eqb (length sig) 64) || negb (Z.eqb (Z.land (byteZ (nth 63 sig x00)) 224) 0) then false
    else
      let '(ok, A) := FromBytes FeZero pk in
      if negb ok then false
      else
        let A := mkExt (FeNeg (eX A)) (eY A) (eZ A) (FeNeg (eT A)) in
        let k := ScReduce (sha (firstn 32 sig ++ pk ++ m)) in
        let s := skipn 32 sig in
        if strict && negb (Z.ltb (le_value s) L25519) then false
        else bytes_eqb (firstn 32 sig) (proj_ToBytes (GeDoubleScalarMultVartime k A s)).
End Ed25519.
