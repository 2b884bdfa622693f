(** Model of crypto/vrf/vrf.go, on top of the model of edwards25519.

    SHAKE256 is a parameter: [xof m n] are the first [n] bytes it gives for the
    message [m] (several [Write] calls concatenate, several [Read] calls
    continue the same output).  Private keys are used with their 64 bytes, which
    is what [GenerateKey] returns and what the callers check
    (application/server/config.go); shorter slices make the code panic.
    A Go variable of type [ExtendedGroupElement] starts as zeros. *)
From Coq Require Import List NArith ZArith Bool Arith.
From Verif Require Import Base Extra25519 GoInt Field Scalar EdConst Group.
Import ListNotations.
Local Open Scope Z_scope.

(** edwards25519/const.go:33-38 [BaseBytes] *)
Definition BaseBytes : bytes := ext_ToBytes extendedBaseEl.

Section VRF.
  Variable xof : bytes -> nat -> bytes.

  (** vrf.go:83-85 *)
  Definition clamp (x : bytes) : bytes :=
    let x := update 0 (toByte (Z.land (byteZ (nth 0 x x00)) 248)) x in
    let x := update 31 (toByte (Z.land (byteZ (nth 31 x x00)) 127)) x in
    update 31 (toByte (Z.lor (byteZ (nth 31 x x00)) 64)) x.
  (** 77-87 [expandSecret] *)
  Definition expandSecret (sk : bytes) : bytes * bytes :=
    let h := xof (firstn 32 sk) 64 in
    (clamp (firstn 32 h), skipn 32 h).
  (** 50-68 [GenerateKey]; [seed] is what was read from [rnd], [None] an error *)
  Definition GenerateKey (seed : option bytes) : option bytes :=
    match seed with
    | None => None
    | Some seed =>
      let x := fst (expandSecret seed) in
      Some (seed ++ ext_ToBytes (GeScalarMultBase x))
    end.
  (** 72-75 [Public]: bytes 32 to 63 (golang.org/x/crypto/ed25519) *)
  Definition Public (sk : bytes) : bytes := skipn 32 sk.
  (** 106-116 [hashToCurve]; [None]: panic *)
  Definition hashToCurve (m : bytes) : option extended :=
    match HashToEdwards FeZero (xof m 32) with
    | None => None
    | Some hm => Some (GeDouble (GeDouble (GeDouble hm)))
    end.
  (** 91-104 [Compute] *)
  Definition Compute (sk m : bytes) : option bytes :=
    let x := fst (expandSecret sk) in
    match hashToCurve m with
    | None => None
    | Some h => let iiB := ext_ToBytes (GeScalarMult x h) in Some (xof (iiB ++ m) 32)
    end.
  (** 144-151, 217-225: H2(g, h, g^x, h^x, g^r, h^r, m) *)
  Definition challenge (hB pk hxB grB hrB m : bytes) : bytes :=
    ScReduce (xof (BaseBytes ++ hB ++ pk ++ hxB ++ grB ++ hrB ++ m) 64).
  (** 121-172 [Prove]: the vrf value and the proof *)
  Definition Prove (sk m : bytes) : option (bytes * bytes) :=
    let '(x, skhr) := expandSecret sk in
    match hashToCurve m with
    | None => None
    | Some h =>
      let hB := ext_ToBytes h in
      let hxB := ext_ToBytes (GeScalarMult x h) in
      let r := ScReduce (xof (skhr ++ skipn 32 sk ++ m) 64) in
      let grB := ext_ToBytes (GeScalarMultBase r) in
      let hrB := ext_ToBytes (GeScalarMult r h) in
      let s := challenge hB (skipn 32 sk) hxB grB hrB m in
      let minusS := ScNeg s in
      let t := ScMulAdd x minusS r in
      Some (xof (hxB ++ m) 32, s ++ t ++ hxB)
    end.
  (** 207-215: the two group elements of the proof, as bytes *)
  Definition commitments (s t : bytes) (P ii h : extended) : bytes * bytes :=
    let A := GeDoubleScalarMultVartime s P t in
    let hmtP := GeDoubleScalarMultVartime t h zero_bytes in
    let iicP := GeDoubleScalarMultVartime s ii zero_bytes in
    let iic := proj_ToExtended FeZero iicP in
    let B := proj_ToExtended FeZero hmtP in
    let B := GeAdd B iic in
    (proj_ToBytes A, ext_ToBytes B).
  (** 176-231 [Verify]; [None]: panic *)
  Definition Verify (pk m vrf proof : bytes) : option bool :=
    if negb (Nat.eqb (length proof) 96) || negb (Nat.eqb (length vrf) 32) || negb (Nat.eqb (length pk) 32) then Some false
    else
      let s := firstn 32 proof in
      let t := firstn 32 (skipn 32 proof) in
      let hxB := skipn 64 proof in
      if negb (bytes_eqb (xof (hxB ++ m) 32) vrf) then Some false
      else match FromBytesBaseGroup pk with
      | None => Some false
      | Some P =>
        match FromBytesBaseGroup hxB with
        | None => Some false
        | Some ii =>
          match hashToCurve m with
          | None => None
          | Some h =>
            let hB := ext_ToBytes h in
            let '(ABytes, BBytes) := commitments s t P ii h in
            let sRef := challenge hB pk hxB ABytes BBytes m in
            Some (bytes_eqb sRef s)
          end
        end
      end.
End VRF.
