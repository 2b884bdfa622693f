(** Model of the group operations of
    crypto/internal/ed25519/edwards25519/edwards25519.go and of the hash to the
    curve of crypto/internal/ed25519/extra25519/extra25519.go.

    Go passes results through pointers; here each function returns them.  The
    results and the arguments of [Double], [ToExtended], [geAdd], ... have
    different types, so they never alias. *)
From Coq Require Import List NArith ZArith Lia Bool Arith.
From Verif Require Import Base Extra25519 GoInt EdCode Field FieldPow EdConst.
Import ListNotations.
Local Open Scope Z_scope.

(** const.go *)
Definition c_d : fe := d_c.
(** crypto/internal/ed25519/edwards25519/const.go:14-16 *)
Definition c_d2 : fe := d2_c.
(** crypto/internal/ed25519/edwards25519/const.go:18-20 *)
Definition c_SqrtM1 : fe := SqrtM1_c.
(** crypto/internal/ed25519/edwards25519/const.go:22-24 *)
Definition c_A : fe := A_c.
(** crypto/internal/ed25519/edwards25519/const.go:8 *)
Definition BasePointOrder : bytes := map toByte BasePointOrder_c.

(** edwards25519.go:989-1007 *)
Record projective := mkProj { prX : fe; prY : fe; prZ : fe }.
(** crypto/internal/ed25519/edwards25519/edwards25519.go:993-995 *)
Record extended := mkExt { eX : fe; eY : fe; eZ : fe; eT : fe }.
(** crypto/internal/ed25519/edwards25519/edwards25519.go:997-999 *)
Record completed := mkComp { cX : fe; cY : fe; cZ : fe; cT : fe }.
(** crypto/internal/ed25519/edwards25519/edwards25519.go:1001-1003 *)
Record precomputed := mkPre { yPlusX : fe; yMinusX : fe; xy2d : fe }.
(** crypto/internal/ed25519/edwards25519/edwards25519.go:1005-1007 *)
Record cached := mkCached { caYPlusX : fe; caYMinusX : fe; caZ : fe; caT2d : fe }.

(** crypto/internal/ed25519/edwards25519/const.go:40-1428, one entry of a table *)
Definition pre_of (t : list Z * list Z * list Z) : precomputed := let '(a, b, c) := t in mkPre a b c.
(** crypto/internal/ed25519/edwards25519/const.go:40-81 *)
Definition bi : list precomputed := map pre_of bi_c.
(** crypto/internal/ed25519/edwards25519/const.go:83-1428 *)
Definition base : list (list precomputed) := map (map pre_of) base_c.
(** crypto/internal/ed25519/edwards25519/const.go:26-31 *)
Definition extendedBaseEl : extended :=
  mkExt (nth 0 extendedBaseEl_c []) (nth 1 extendedBaseEl_c []) (nth 2 extendedBaseEl_c []) (nth 3 extendedBaseEl_c []).

(** 1009-1013, 1045-1050, 1193-1197 [Zero] *)
Definition proj_Zero : projective := mkProj FeZero FeOne FeOne.
(** crypto/internal/ed25519/edwards25519/edwards25519.go:1045-1050 *)
Definition ext_Zero : extended := mkExt FeZero FeOne FeOne FeZero.
(** crypto/internal/ed25519/edwards25519/edwards25519.go:1193-1197 *)
Definition pre_Zero : precomputed := mkPre FeOne FeOne FeZero.

(** 1015-1027 [Double] of projective elements *)
Definition proj_Double (p : projective) : completed :=
  let rX := FeSquare (prX p) in
  let rZ := FeSquare (prY p) in
  let rT := FeSquare2 (prZ p) in
  let rY := FeAdd (prX p) (prY p) in
  let t0 := FeSquare rY in
  let rY := FeAdd rZ rX in
  let rZ := FeSub rZ rX in
  let rX := FeSub t0 rY in
  let rT := FeSub rT rZ in
  mkComp rX rY rZ rT.

(** [s[31] ^= b << 7], on bytes *)
(** crypto/internal/ed25519/edwards25519/edwards25519.go:1042, 1086 *)
Definition xor_top (s : bytes) (b : Z) : bytes :=
  firstn 31 s ++ [toByte (Z.lxor (byteZ (nth 31 s x00)) (wrap U8 (Z.shiftl b 7)))].
(** 1035-1043, 1079-1087 [ToBytes] of both representations: the bytes written *)
Definition to_bytes (X Y Z : fe) : bytes :=
  let recip := FeInvert Z in
  let x := FeMul X recip in
  let y := FeMul Y recip in
  let s := fst (FeToBytes y) in
  xor_top s (fst (FeIsNegative x)).
(** crypto/internal/ed25519/edwards25519/edwards25519.go:1035-1043 *)
Definition proj_ToBytes (p : projective) : bytes := to_bytes (prX p) (prY p) (prZ p).
(** crypto/internal/ed25519/edwards25519/edwards25519.go:1079-1087 *)
Definition ext_ToBytes (p : extended) : bytes := to_bytes (eX p) (eY p) (eZ p).

(** 1066-1071 [ToCached], 1073-1077 [ToProjective] *)
Definition ext_ToCached (p : extended) : cached :=
  mkCached (FeAdd (eY p) (eX p)) (FeSub (eY p) (eX p)) (eZ p) (FeMul (eT p) c_d2).
(** crypto/internal/ed25519/edwards25519/edwards25519.go:1073-1077 *)
Definition ext_ToProjective (p : extended) : projective := mkProj (eX p) (eY p) (eZ p).
(** 1052-1056 [Double] of extended elements *)
Definition ext_Double (p : extended) : completed := proj_Double (ext_ToProjective p).
(** 1180-1191 [ToProjective] and [ToExtended] of completed elements *)
Definition comp_ToProjective (p : completed) : projective :=
  mkProj (FeMul (cX p) (cT p)) (FeMul (cY p) (cZ p)) (FeMul (cZ p) (cT p)).
(** crypto/internal/ed25519/edwards25519/edwards25519.go:1186-1191 *)
Definition comp_ToExtended (p : completed) : extended :=
  mkExt (FeMul (cX p) (cT p)) (FeMul (cY p) (cZ p)) (FeMul (cZ p) (cT p)) (FeMul (cX p) (cY p)).
(** 1058-1064 [GeDouble] *)
Definition GeDouble (p : extended) : extended := comp_ToExtended (proj_Double (ext_ToProjective p)).

(** 1134-1178 [FromParityAndY] on a receiver whose [T] is [T0]: the result and
    the receiver afterwards (the receiver matters even when the result is false,
    as [ToExtended] ignores the result). *)
Definition FromParityAndY (T0 : fe) (bit : Z) (y : fe) : bool * extended :=
  let Y := y in
  let Z := FeOne in
  let u := FeSquare Y in
  let v := FeMul u c_d in
  let u := FeSub u Z in
  let v := FeAdd v Z in
  let v3 := FeSquare v in
  let v3 := FeMul v3 v in
  let X := FeSquare v3 in
  let X := FeMul X v in
  let X := FeMul X u in
  let X := fePow22523 X in
  let X := FeMul X v3 in
  let X := FeMul X u in
  let vxx := FeSquare X in
  let vxx := FeMul vxx v in
  let check := FeSub vxx u in
  let finish X :=
    let '(neg, X) := FeIsNegative X in
    let X := if Z.eqb neg bit then X else FeNeg X in
    (true, mkExt X Y Z (FeMul X Y)) in
  if Z.eqb (fst (FeIsNonZero check)) 1 then
    let check := FeAdd vxx u in
    if Z.eqb (fst (FeIsNonZero check)) 1 then (false, mkExt X Y Z T0)
    else
      let X := FeMul X c_SqrtM1 in
      let X := snd (FeToBytes X) in
      finish X
  else finish X.
(** 1129-1132 [FromBytes] *)
Definition FromBytes (T0 : fe) (s : bytes) : bool * extended :=
  FromParityAndY T0 (Z.shiftr (byteZ (nth 31 s x00)) 7) (FeFromBytes s).
(** 1029-1033 [ToExtended] of projective elements: through bytes; the result
    of [FromBytes] is ignored.  [T0] is the [T] the receiver had before. *)
Definition proj_ToExtended (T0 : fe) (p : projective) : extended := snd (FromBytes T0 (proj_ToBytes p)).

(** 1199-1213 [geAdd], 1215-1229 [geSub] *)
Definition geAdd (p : extended) (q : cached) : completed :=
  let rX := FeAdd (eY p) (eX p) in
  let rY := FeSub (eY p) (eX p) in
  let rZ := FeMul rX (caYPlusX q) in
  let rY := FeMul rY (caYMinusX q) in
  let rT := FeMul (caT2d q) (eT p) in
  let rX := FeMul (eZ p) (caZ q) in
  let t0 := FeAdd rX rX in
  let rX := FeSub rZ rY in
  let rY := FeAdd rZ rY in
  let rZ := FeAdd t0 rT in
  let rT := FeSub t0 rT in
  mkComp rX rY rZ rT.
(** crypto/internal/ed25519/edwards25519/edwards25519.go:1215-1229 *)
Definition geSub (p : extended) (q : cached) : completed :=
  let rX := FeAdd (eY p) (eX p) in
  let rY := FeSub (eY p) (eX p) in
  let rZ := FeMul rX (caYMinusX q) in
  let rY := FeMul rY (caYPlusX q) in
  let rT := FeMul (caT2d q) (eT p) in
  let rX := FeMul (eZ p) (caZ q) in
  let t0 := FeAdd rX rX in
  let rX := FeSub rZ rY in
  let rY := FeAdd rZ rY in
  let rZ := FeSub t0 rT in
  let rT := FeAdd t0 rT in
  mkComp rX rY rZ rT.
(** 1231-1244 [geMixedAdd], 1246-1259 [geMixedSub] *)
Definition geMixedAdd (p : extended) (q : precomputed) : completed :=
  let rX := FeAdd (eY p) (eX p) in
  let rY := FeSub (eY p) (eX p) in
  let rZ := FeMul rX (yPlusX q) in
  let rY := FeMul rY (yMinusX q) in
  let rT := FeMul (xy2d q) (eT p) in
  let t0 := FeAdd (eZ p) (eZ p) in
  let rX := FeSub rZ rY in
  let rY := FeAdd rZ rY in
  let rZ := FeAdd t0 rT in
  let rT := FeSub t0 rT in
  mkComp rX rY rZ rT.
(** crypto/internal/ed25519/edwards25519/edwards25519.go:1246-1259 *)
Definition geMixedSub (p : extended) (q : precomputed) : completed :=
  let rX := FeAdd (eY p) (eX p) in
  let rY := FeSub (eY p) (eX p) in
  let rZ := FeMul rX (yMinusX q) in
  let rY := FeMul rY (yPlusX q) in
  let rT := FeMul (xy2d q) (eT p) in
  let t0 := FeAdd (eZ p) (eZ p) in
  let rX := FeSub rZ rY in
  let rY := FeAdd rZ rY in
  let rZ := FeSub t0 rT in
  let rT := FeAdd t0 rT in
  mkComp rX rY rZ rT.
(** 1292-1298 [GeAdd] *)
Definition GeAdd (a b : extended) : extended := comp_ToExtended (geAdd a (ext_ToCached b)).
(** 1307-1312 [ExtendedGroupElementCMove], 1397-1401 [PreComputedGroupElementCMove] *)
Definition ext_CMove (t u : extended) (b : Z) : extended :=
  mkExt (FeCMove (eX t) (eX u) b) (FeCMove (eY t) (eY u) b) (FeCMove (eZ t) (eZ u) b) (FeCMove (eT t) (eT u) b).
(** crypto/internal/ed25519/edwards25519/edwards25519.go:1397-1401 *)
Definition pre_CMove (t u : precomputed) (b : Z) : precomputed :=
  mkPre (FeCMove (yPlusX t) (yPlusX u) b) (FeCMove (yMinusX t) (yMinusX u) b) (FeCMove (xy2d t) (xy2d u) b).

(** 1316-1328 [GeScalarMult]; one round: *)
Definition scalarBit (a : bytes) (i : nat) : Z :=
  Z.land (Z.shiftr (byteZ (nth (Nat.div i 8) a x00)) (Z.of_nat (Nat.modulo i 8))) 1.
(** crypto/internal/ed25519/edwards25519/edwards25519.go:1316-1328, the loop body *)
Definition GeScalarMult_round (a : bytes) (st : extended * extended) (i : nat) : extended * extended :=
  let '(p, q) := st in
  let bit := scalarBit a i in
  let t := GeAdd q p in
  let q := ext_CMove q t bit in
  let p := GeDouble p in
  (p, q).
(** crypto/internal/ed25519/edwards25519/edwards25519.go:1316-1328 *)
Definition GeScalarMult (a : bytes) (A : extended) : extended :=
  snd (fold_left (GeScalarMult_round a) (seq 0 256) (A, ext_Zero)).

(** ** Signed sliding windows *)

(** int8 *)
(** int8, crypto/internal/ed25519/edwards25519/edwards25519.go:1261-1289 *)
Definition wrapI8 (z : Z) : Z := (z + 128) mod 256 - 128.
(** Go assignment r[i] = v, crypto/internal/ed25519/edwards25519/edwards25519.go:1261-1289 *)
Fixpoint update {A} (i : nat) (v : A) (l : list A) : list A :=
  match l, i with [], _ => [] | _ :: l', O => v :: l' | x :: l', S i' => x :: update i' v l' end.
(** 1276-1282: [for k := i+b; k < 256; k++ {...}], on the array from position
    [i+b] on: add one to a binary number; a carry out of the array is lost. *)
Fixpoint slide_carry (r : list Z) : list Z :=
  match r with
  | [] => []
  | x :: r' => if Z.eqb x 0 then 1 :: r' else 0 :: slide_carry r'
  end.
(** 1268-1287: the loop over [b], for the element [x = r[i]] and the array
    [rest = r[i+1:]]; [i+b < 256] is [b <= length rest].  [n] rounds are left. *)
Fixpoint slide_inner (n b : nat) (x : Z) (rest : list Z) : Z * list Z :=
  match n with
  | O => (x, rest)
  | S n' =>
    if Nat.leb b (length rest) then
      let y := nth (b - 1) rest 0 in
      if Z.eqb y 0 then slide_inner n' (S b) x rest
      else
        let s := wrapI8 (Z.shiftl y (Z.of_nat b)) in
        if Z.leb (wrapI8 (x + s)) 15 then
          slide_inner n' (S b) (wrapI8 (x + s)) (update (b - 1) 0 rest)
        else if Z.leb (-15) (wrapI8 (x - s)) then
          slide_inner n' (S b) (wrapI8 (x - s)) (firstn (b - 1) rest ++ slide_carry (skipn (b - 1) rest))
        else (x, rest)
    else (x, rest)
  end.
(** 1266-1289: the loop over [i], on the array from position [i] on.  The body
    for [i] reads and writes only positions [>= i]. *)
Fixpoint slide_loop (n : nat) (r : list Z) : list Z :=
  match n, r with
  | S n', x :: rest =>
    let '(x', rest') := if Z.eqb x 0 then (x, rest) else slide_inner 6 1 x rest in
    x' :: slide_loop n' rest'
  | _, _ => r
  end.
(** 1261-1289 [slide] *)
Definition slide (a : bytes) : list Z := slide_loop 256 (map (scalarBit a) (seq 0 256)).

(** 1334-1383 [GeDoubleScalarMultVartime]; the table, 1347-1355: *)
Fixpoint table_from (A2 : extended) (n : nat) (c : cached) : list cached :=
  match n with
  | O => [c]
  | S n' => c :: table_from A2 n' (ext_ToCached (comp_ToExtended (geAdd A2 c)))
  end.
(** crypto/internal/ed25519/edwards25519/edwards25519.go:1347-1355 *)
Definition cached_table (A : extended) : list cached :=
  table_from (comp_ToExtended (ext_Double A)) 7 (ext_ToCached A).
(** no line of its own in /repo: default of a lookup that is always in range *)
Definition ca_dummy : cached := mkCached [] [] [] [].
(** no line of its own in /repo: default of a lookup that is always in range *)
Definition pre_dummy : precomputed := mkPre [] [] [].
(** 1365-1383: one round of the main loop.  Go's [/] truncates. *)
Definition dsm_round (Ai : list cached) (r : projective) (ab : Z * Z) : projective :=
  let '(x, y) := ab in
  let t := proj_Double r in
  let t :=
    if Z.ltb 0 x then geAdd (comp_ToExtended t) (nth (Z.to_nat (Z.quot x 2)) Ai ca_dummy)
    else if Z.ltb x 0 then geSub (comp_ToExtended t) (nth (Z.to_nat (Z.quot (- x) 2)) Ai ca_dummy)
    else t in
  let t :=
    if Z.ltb 0 y then geMixedAdd (comp_ToExtended t) (nth (Z.to_nat (Z.quot y 2)) bi pre_dummy)
    else if Z.ltb y 0 then geMixedSub (comp_ToExtended t) (nth (Z.to_nat (Z.quot (- y) 2)) bi pre_dummy)
    else t in
  comp_ToProjective t.
(** 1359-1363: skip the leading positions where both digits are zero *)
Fixpoint skip_zeros (l : list (Z * Z)) : list (Z * Z) :=
  match l with
  | (x, y) :: l' => if negb (Z.eqb x 0) || negb (Z.eqb y 0) then l else skip_zeros l'
  | [] => []
  end.
(** crypto/internal/ed25519/edwards25519/edwards25519.go:1334-1383 *)
Definition GeDoubleScalarMultVartime (a : bytes) (A : extended) (b : bytes) : projective :=
  let aSlide := slide a in
  let bSlide := slide b in
  let Ai := cached_table A in
  fold_left (dsm_round Ai) (skip_zeros (rev (combine aSlide bSlide))) proj_Zero.

(** ** Multiples of the base point *)

(** 1386-1390 [equal] (the subtraction is on uint32), 1393-1395 [negative] *)
Definition equal (b c : Z) : Z :=
  let x := Z.lxor b c mod 2 ^ 32 in
  let x := (x - 1) mod 2 ^ 32 in
  wrap I32 (Z.shiftr x 31).
(** crypto/internal/ed25519/edwards25519/edwards25519.go:1393-1395 *)
Definition negative (b : Z) : Z := Z.land (Z.shiftr b 31) 1.
(** 1403-1417 [selectPoint], for the row [row] of the table *)
Definition selectPoint (row : list precomputed) (b : Z) : precomputed :=
  let bNegative := negative b in
  let bAbs := wrap I32 (b - wrap I32 (Z.shiftl (Z.land (wrap I32 (- bNegative)) b) 1)) in
  let t := fold_left (fun t i => pre_CMove t (nth i row pre_dummy) (equal bAbs (Z.of_nat i + 1))) (seq 0 8) pre_Zero in
  let minusT := mkPre (yMinusX t) (yPlusX t) (FeNeg (xy2d t)) in
  pre_CMove t minusT bNegative.
(** 1427-1430: the four-bit digits *)
Definition nibbles (a : bytes) : list Z :=
  flat_map (fun v => [Z.land (byteZ v) 15; Z.land (Z.shiftr (byteZ v) 4) 15]) a.
(** 1434-1440: the carries; the last digit only receives one *)
Fixpoint recode (carry : Z) (e : list Z) : list Z :=
  match e with
  | [] => []
  | [x] => [wrapI8 (x + carry)]
  | x :: e' =>
    let x := wrapI8 (x + carry) in
    let carry := Z.shiftr (wrapI8 (x + 8)) 4 in
    wrapI8 (x - wrapI8 (Z.shiftl carry 4)) :: recode carry e'
  end.
(** crypto/internal/ed25519/edwards25519/edwards25519.go:1442-1466, the loop bodies *)
Definition smb_add (e : list Z) (h : extended) (i : nat) : extended :=
  comp_ToExtended (geMixedAdd h (selectPoint (nth (Nat.div i 2) base []) (nth i e 0))).
(** 1424-1466 [GeScalarMultBase] *)
Definition GeScalarMultBase (a : bytes) : extended :=
  let e := recode 0 (nibbles a) in
  let h := fold_left (smb_add e) (map (fun k => (2 * k + 1)%nat) (seq 0 32)) ext_Zero in
  let r := ext_Double h in
  let r := proj_Double (comp_ToProjective r) in
  let r := proj_Double (comp_ToProjective r) in
  let r := proj_Double (comp_ToProjective r) in
  let h := comp_ToExtended r in
  fold_left (smb_add e) (map (fun k => (2 * k)%nat) (seq 0 32)) h.

(** ** Points of the prime-order group *)

(** Go array equality, crypto/internal/ed25519/edwards25519/edwards25519.go:1095-1127 *)
Definition bytes_eqb (a b : bytes) : bool := if list_eq_dec Byte.byte_eq_dec a b then true else false.
(** crypto/internal/ed25519/edwards25519/edwards25519.go:1095-1127 *)
Definition one_bytes : bytes := x01 :: repeat x00 31.
(** crypto/internal/ed25519/edwards25519/edwards25519.go:1095-1127 *)
Definition zero_bytes : bytes := repeat x00 32.
(** 1095-1127 [FromBytesBaseGroup] on a fresh receiver: the point when the
    result is true (the callers do not use it otherwise) *)
Definition FromBytesBaseGroup (s : bytes) : option extended :=
  if bytes_eqb s one_bytes then None
  else match FromBytes FeZero s with
  | (false, _) => None
  | (true, p) =>
    if negb (bytes_eqb (ext_ToBytes p) s) then None
    else if negb (bytes_eqb (ext_ToBytes (GeScalarMult BasePointOrder p)) one_bytes) then None
    else if bytes_eqb s zero_bytes then None
    else Some p
  end.

(** ** Hashing to the curve (extra25519.go) *)

(** extra25519.go:322-348 [representativeToMontgomeryX]: [rr2[0]++] is int32 *)
Definition incr0 (f : fe) : fe := match f with x :: f' => wrap I32 (x + 1) :: f' | [] => [] end.
(** crypto/internal/ed25519/extra25519/extra25519.go:322-348 *)
Definition representativeToMontgomeryX (rr2 : fe) : fe :=
  let rr2 := FeSquare2 rr2 in
  let rr2 := incr0 rr2 in
  let rr2 := FeInvert rr2 in
  let v := FeMul c_A rr2 in
  let v := FeNeg v in
  let v2 := FeSquare v in
  let v3 := FeMul v v2 in
  let e := FeAdd v3 v in
  let v2 := FeMul v2 c_A in
  let e := FeAdd v2 e in
  let e := chi e in
  let eBytes := fst (FeToBytes e) in
  let eIsMinus1 := Z.land (byteZ (nth 1 eBytes x00)) 1 in
  let negV := FeNeg v in
  let v := FeCMove v negV eIsMinus1 in
  let v2 := FeCMove FeZero c_A eIsMinus1 in
  FeSub v v2.
(** 314-319 [RepresentativeToPublicKey] *)
Definition RepresentativeToPublicKey (representative : bytes) : bytes :=
  fst (FeToBytes (representativeToMontgomeryX (FeFromBytes representative))).
(** 350-357 [montgomeryXToEdwardsY] *)
Definition montgomeryXToEdwardsY (x : fe) : fe :=
  let t := FeOne in
  let tt := FeAdd x t in
  let tt := FeInvert tt in
  let t := FeSub x t in
  FeMul tt t.
(** 366-376 [HashToEdwards]; [None]: the panic.  [T0] is the [T] of [out]. *)
Definition HashToEdwards (T0 : fe) (h : bytes) : option extended :=
  let bit := Z.shiftr (byteZ (nth 31 h x00)) 7 in
  let hh := firstn 31 h ++ [toByte (Z.land (byteZ (nth 31 h x00)) 127)] in
  let Y := FeFromBytes hh in
  let X := representativeToMontgomeryX Y in
  let Y := montgomeryXToEdwardsY X in
  match FromParityAndY T0 bit Y with
  | (true, out) => Some out
  | (false, _) => None
  end.
