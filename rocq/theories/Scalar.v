(** Model of the scalar arithmetic of
    crypto/internal/ed25519/edwards25519/edwards25519.go. *)
From Coq Require Import List NArith ZArith Lia Bool Arith String.
From Verif Require Import Base Extra25519 GoInt EdCode Field.
Import ListNotations.
Local Open Scope Z_scope.

(** edwards25519.go:1480-1903 [ScMulAdd]: the bytes written to [s].  [a], [b]
    and [c] are read completely before [s] is written. *)
Definition ScMulAdd (a b c : bytes) : bytes :=
  let e := exec (with_array (with_array (with_array env0 "a" (map byteZ a)) "b" (map byteZ b)) "c" (map byteZ c))
             (ScMulAdd_code1 ++ ScMulAdd_code2 ++ ScMulAdd_code3 ++ ScMulAdd_code4 ++ ScMulAdd_code5) in
  map (fun x => toByte (eval e x)) ScMulAdd_pack.

(** edwards25519.go:1936-2252 [ScReduce]: the bytes written to [out]. *)
Definition ScReduce (s : bytes) : bytes :=
  let e := exec (with_array env0 "s" (map byteZ s))
             (ScReduce_code1 ++ ScReduce_code2 ++ ScReduce_code3 ++ ScReduce_code4 ++ ScReduce_code5) in
  map (fun x => toByte (eval e x)) ScReduce_pack.

(** edwards25519.go:1913, the constant [l] *)
Definition ScNeg_l : list Z :=
  [237; 211; 245; 92; 26; 99; 18; 88; 214; 156; 247; 162; 222; 249; 222; 20; 0; 0; 0; 0; 0; 0; 0; 0; 0; 0; 0; 0; 0; 0; 0; 16].
(** edwards25519.go:1915-1928, one round of the loop: the byte written and the
    next carry *)
Definition ScNeg_step (carry l s : Z) : byte * Z :=
  let carry := wrap I32 (wrap I32 (carry + l) - s) in
  let negative := Z.land carry (-2147483648) in
  let negative := Z.lor negative (Z.shiftr negative 16) in
  let negative := Z.lor negative (Z.shiftr negative 8) in
  let negative := Z.lor negative (Z.shiftr negative 4) in
  let negative := Z.lor negative (Z.shiftr negative 2) in
  let negative := Z.lor negative (Z.shiftr negative 1) in
  let carry := wrap I32 (carry + Z.land negative 256) in
  (toByte carry, Z.land negative (-1)).
(** crypto/internal/ed25519/edwards25519/edwards25519.go:1912-1928 *)
Fixpoint ScNeg_loop (carry : Z) (l : list Z) (s : bytes) : bytes :=
  match l, s with
  | x :: l', b :: s' => let '(r, carry') := ScNeg_step carry x (byteZ b) in r :: ScNeg_loop carry' l' s'
  | _, _ => []
  end.
(** edwards25519.go:1912-1928 [ScNeg] *)
Definition ScNeg (s : bytes) : bytes := ScNeg_loop 0 ScNeg_l s.

(** const.go: the order of the base point, as a number: the scalars are
    "GF(2^252 + 27742317777372353535851937790883648493)" *)
Definition L25519 : Z := 2 ^ 252 + 27742317777372353535851937790883648493.
