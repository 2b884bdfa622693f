(** Model of the rest of crypto/internal/ed25519/extra25519/extra25519.go:
    conversion of Ed25519 keys to Curve25519 keys, and key generation with
    Elligator representatives (15-68, 90-202).  Not called by the rest of the
    repository. *)
From Coq Require Import List NArith ZArith Bool Arith.
From Verif Require Import Base Extra25519 GoInt Field FieldPow Scalar EdConst Group VRF.
Import ListNotations.
Local Open Scope Z_scope.

(** extra25519.go:16-26 [PrivateKeyToCurve25519]; [sha512] is the library's
    hash.  The three masks are those of vrf.go:83-85. *)
Definition PrivateKeyToCurve25519 (sha512 : bytes -> bytes) (privateKey : bytes) : bytes :=
  clamp (firstn 32 (sha512 (firstn 32 privateKey))).

(** 28-41 [edwardsToMontgomeryX] *)
Definition edwardsToMontgomeryX (y : fe) : fe :=
  let oneMinusY := FeOne in
  let oneMinusY := FeSub oneMinusY y in
  let oneMinusY := FeInvert oneMinusY in
  let outX := FeOne in
  let outX := FeAdd outX y in
  FeMul outX oneMinusY.
(** 45-56 [PublicKeyToCurve25519]; [None]: false *)
Definition PublicKeyToCurve25519 (publicKey : bytes) : option bytes :=
  match FromBytes FeZero publicKey with
  | (false, _) => None
  | (true, A) => Some (fst (FeToBytes (edwardsToMontgomeryX (eY A))))
  end.

(** 59-61 [sqrtMinusA] *)
Definition sqrtMinusA : fe :=
  [12222970; 8312128; 11511410; -9067497; 15300785; 241793; -25456130; -14121551; 12187136; -3972024].
(** 64-66 [sqrtMinusHalf] *)
Definition sqrtMinusHalf : fe :=
  [-17256545; 3971863; 28865457; -1750208; 27359696; -16640980; 12573105; 1002827; -163343; 11073975].
(** 69-71 [halfQMinus1Bytes] *)
Definition halfQMinus1Bytes : bytes := xf6 :: repeat xff 30 ++ [x3f].

(** 122-129: c = (u b^7)^((p-5)/8), b^3, b^8 *)
Definition sbm_powers (u b : fe) : fe * fe * fe :=
  let b3 := FeSquare b in
  let b3 := FeMul b3 b in
  let c := FeSquare b3 in
  let c := FeMul c b in
  let b8 := FeMul c b in
  let c := FeMul c u in
  let c := q58 c in
  (c, b3, b8).
(** 131-144 *)
Definition sbm_chi (u b c : fe) : fe :=
  let chi := FeSquare c in
  let chi := FeSquare chi in
  let t0 := FeSquare u in
  let chi := FeMul chi t0 in
  let t0 := FeSquare b in
  let t0 := FeMul t0 b in
  let t0 := FeSquare t0 in
  let t0 := FeMul t0 b in
  let t0 := FeSquare t0 in
  let chi := FeMul chi t0 in
  FeNeg chi.
(** 153-167 *)
Definition sbm_r1 (u b c b3 : fe) : fe :=
  let r1 := FeMul c u in
  let r1 := FeMul r1 b3 in
  let r1 := FeMul r1 sqrtMinusHalf in
  let t0 := FeSquare r1 in
  let t0 := FeMul t0 b in
  let t0 := FeAdd t0 t0 in
  let t0 := FeAdd t0 u in
  let maybeSqrtM1 := FeCMove FeOne c_SqrtM1 (fst (FeIsNonZero t0)) in
  FeMul r1 maybeSqrtM1.
(** 169-192 *)
Definition sbm_r (u b c b8 : fe) : fe :=
  let t0 := FeSquare c in
  let t0 := FeMul t0 c in
  let t0 := FeSquare t0 in
  let r := FeMul t0 c in
  let t0 := FeSquare u in
  let t0 := FeMul t0 u in
  let r := FeMul r t0 in
  let t0 := FeSquare b8 in
  let t0 := FeMul t0 b8 in
  let t0 := FeMul t0 b in
  let r := FeMul r t0 in
  let r := FeMul r sqrtMinusHalf in
  let t0 := FeSquare r in
  let t0 := FeMul t0 u in
  let t0 := FeAdd t0 t0 in
  let t0 := FeAdd t0 b in
  let maybeSqrtM1 := FeCMove FeOne c_SqrtM1 (fst (FeIsNonZero t0)) in
  FeMul r maybeSqrtM1.
(** 104-201: from the point on *)
Definition sbm_from (A : extended) : option (bytes * bytes) :=
  let inv1 := FeInvert (FeMul (FeSub (eZ A) (eY A)) (eX A)) in
  let t0 := FeAdd (eY A) (eZ A) in
  let u := FeMul (FeMul inv1 (eX A)) t0 in
  let v := FeMul (FeMul (FeMul t0 inv1) (eZ A)) sqrtMinusA in
  let b := FeAdd u c_A in
  let '(c, b3, b8) := sbm_powers u b in
  let chiBytes := fst (FeToBytes (sbm_chi u b c)) in
  if Z.eqb (byteZ (nth 1 chiBytes x00)) 255 then None
  else
    let vInSquareRootImage := feBytesLE (fst (FeToBytes v)) halfQMinus1Bytes in
    let r := FeCMove (sbm_r u b c b8) (sbm_r1 u b c b3) vInSquareRootImage in
    Some (fst (FeToBytes u), fst (FeToBytes r)).
(** 93-202 [ScalarBaseMult]: the public key and its representative; [None]:
    false.  The masks of 97-99 are [clamp]. *)
Definition ScalarBaseMult (privateKey : bytes) : option (bytes * bytes) :=
  sbm_from (GeScalarMultBase (clamp privateKey)).
