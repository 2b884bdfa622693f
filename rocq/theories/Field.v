(** Model of the field arithmetic of
    crypto/internal/ed25519/edwards25519/edwards25519.go.  The long straight-line
    functions run the programs of EdCode.v; the loops are modelled here. *)
From Coq Require Import List NArith ZArith Lia Bool Arith String.
From Verif Require Import Base Extra25519 GoInt EdCode.
Import ListNotations.
Local Open Scope Z_scope.

(** edwards25519.go:16 [FieldElement]: ten int32 limbs *)
Definition fe := list Z.

(** edwards25519.go:21-25 [FeZero], 27-30 [FeOne] *)
Definition FeZero : fe := repeat 0 10.
(** crypto/internal/ed25519/edwards25519/edwards25519.go:27-30 *)
Definition FeOne : fe := 1 :: repeat 0 9.

(** edwards25519.go:32-36 [FeAdd], 38-42 [FeSub], 278-282 [FeNeg]: int32
    operations limb by limb ([dst] may be one of the arguments: limb [i] is
    read before it is written).  44-48 [FeCopy] is the identity. *)
Definition map2 {A B D} (f : A -> B -> D) (a : list A) (b : list B) : list D :=
  map (fun p => f (fst p) (snd p)) (combine a b).
(** crypto/internal/ed25519/edwards25519/edwards25519.go:32-36 *)
Definition FeAdd (a b : fe) : fe := map2 (fun x y => wrap I32 (x + y)) a b.
(** crypto/internal/ed25519/edwards25519/edwards25519.go:38-42 *)
Definition FeSub (a b : fe) : fe := map2 (fun x y => wrap I32 (x - y)) a b.
(** crypto/internal/ed25519/edwards25519/edwards25519.go:278-282 *)
Definition FeNeg (f : fe) : fe := map (fun x => wrap I32 (- x)) f.

(** edwards25519.go:54-64 [FeCMove]: the new value of [f].  ([&] and [^] of
    int32 values are [Z.land] and [Z.lxor].) *)
Definition FeCMove (f g : fe) (b : Z) : fe :=
  let b := wrap I32 (- b) in
  map2 (fun x y => Z.lxor x (Z.land b (Z.lxor x y))) f g.

(** edwards25519.go:311-542 [FeMul], 551-695 [FeSquare], 707-862 [FeSquare2].
    All limbs of [f] and [g] are read before the first limb of [h] is written,
    so it does not matter whether [h] is [f] or [g]. *)
Definition FeMul (f g : fe) : fe :=
  array (exec (with_array (with_array env0 "f" f) "g" g) FeMul_code) "h" 10.
(** crypto/internal/ed25519/edwards25519/edwards25519.go:551-695 *)
Definition FeSquare (f : fe) : fe := array (exec (with_array env0 "f" f) FeSquare_code) "h" 10.
(** crypto/internal/ed25519/edwards25519/edwards25519.go:707-862 *)
Definition FeSquare2 (f : fe) : fe := array (exec (with_array env0 "f" f) FeSquare2_code) "h" 10.

(** edwards25519.go:83-138 [FeFromBytes] *)
Definition FeFromBytes (src : bytes) : fe :=
  array (exec (with_array env0 "src" (map byteZ src)) (FeFromBytes_code1 ++ FeFromBytes_code2)) "dst" 10.

(** A value of type byte *)
(** Go conversion byte(n), crypto/internal/ed25519/edwards25519/edwards25519.go:211-249 *)
Definition toByte (z : Z) : byte := b8 (Z.to_N (z mod 256)).

(** edwards25519.go:163-250 [FeToBytes]: the bytes written to [s], and the
    argument [h], which the function overwrites. *)
Definition FeToBytes (h : fe) : bytes * fe :=
  let e := exec (with_array env0 "h" h) (FeToBytes_code1 ++ FeToBytes_code2) in
  (map (fun x => toByte (eval e x)) FeToBytes_pack, array e "h" 10).

(** edwards25519.go:252-256 [FeIsNegative]: the result and the overwritten
    argument. *)
Definition FeIsNegative (f : fe) : Z * fe :=
  let '(s, f') := FeToBytes f in (Z.land (byteZ (nth 0 s x00)) 1, f').

(** edwards25519.go:258-269 [FeIsNonZero] *)
Definition FeIsNonZero (f : fe) : Z * fe :=
  let '(s, f') := FeToBytes f in
  let x := fold_left (fun x b => Z.lor x (byteZ b)) s 0 in
  let x := Z.lor x (Z.shiftr x 4) in
  let x := Z.lor x (Z.shiftr x 2) in
  let x := Z.lor x (Z.shiftr x 1) in
  (Z.land x 1, f').
