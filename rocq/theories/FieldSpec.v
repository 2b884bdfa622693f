(** What field elements mean: the specification for the field arithmetic. *)
From Coq Require Import List ZArith.
From Verif Require Import Field.
Import ListNotations.
Local Open Scope Z_scope.

(** The prime 2^255 - 19 *)
Definition p25519 : Z := 2 ^ 255 - 19.

(** edwards25519.go:12-15: "t[0]+2^26 t[1]+2^51 t[2]+2^77 t[3]+2^102 t[4]+...
    +2^230 t[9]" *)
Definition fe_value (t : fe) : Z :=
  nth 0 t 0 + 2^26 * nth 1 t 0 + 2^51 * nth 2 t 0 + 2^77 * nth 3 t 0 + 2^102 * nth 4 t 0 +
  2^128 * nth 5 t 0 + 2^153 * nth 6 t 0 + 2^179 * nth 7 t 0 + 2^204 * nth 8 t 0 + 2^230 * nth 9 t 0.

(** "|f| bounded by k/100 * (2^25, 2^24, 2^25, 2^24, etc.)", ten limbs *)
Definition fe_bound (k : Z) (f : fe) : Prop :=
  length f = 10%nat /\
  forall i, (i < 10)%nat -> 100 * Z.abs (nth i f 0) <= k * (if Nat.even i then 2 ^ 25 else 2 ^ 24).

(** Equality in the field *)
Definition eqp (a b : Z) : Prop := (p25519 | a - b).
