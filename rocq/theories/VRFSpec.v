(** Specification of the verifiable random function in terms of the group of
    the curve: independent of how the code computes in it. *)
From Coq Require Import List ZArith Bool.
From Verif Require Import Base Extra25519 GoInt Field FieldSpec Fp EdGroup EdOrder Scalar EncFacts BaseFacts PointFacts.
Import ListNotations.
Local Open Scope Z_scope.

(** A number as [n] bytes, little-endian *)
Fixpoint zbytes (n : nat) (z : Z) : bytes :=
  match n with O => [] | S n' => toByte z :: zbytes n' (z / 256) end.
(** The 32 bytes of a point: the second coordinate, the parity of the first one on top *)
Definition encode (P : point) : bytes := zbytes 32 (enc P).
(** Points other than the neutral one that L kills *)
Definition prime_order (P : point) : Prop := smul L25519 P = pO /\ P <> pO.
(** The point of the curve a 32-byte hash is mapped to by Elligator 2 *)
Definition elligator (h : bytes) (E : point) : Prop :=
  py E = ell_y (ell_u (Z2F (le_value h mod 2 ^ 255))) /\ (px E = F0 \/ parity (px E) = Z.testbit (le_value h) 255).

Section Spec.
  Variable xof : bytes -> nat -> bytes.
  (** H1(m): eight times the Elligator point of the hash of [m] *)
  Definition H1 (m : bytes) (H : point) : Prop := exists E, elligator (xof m 32) E /\ H = smul 8 E.
  (** H2, as a number *)
  Definition H2 (H : point) (pk hx : bytes) (A B : point) (m : bytes) : Z :=
    le_value (xof (encode pB ++ encode H ++ pk ++ hx ++ encode A ++ encode B ++ m) 64) mod L25519.
  (** The proof (s, t, hx) is valid for the public key [pk], [m] and [vrf] *)
  Definition valid_proof (pk m vrf : bytes) (s t : Z) (hx : bytes) : Prop :=
    vrf = xof (hx ++ m) 32 /\
    exists P I H, pk = encode P /\ prime_order P /\ hx = encode I /\ prime_order I /\ H1 m H /\
      s = H2 H pk hx (padd (smul s P) (smul t pB)) (padd (smul t H) (smul s I)) m.
End Spec.
