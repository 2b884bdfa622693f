(** Model of the byte comparison of crypto/internal/ed25519/extra25519. *)
From Coq Require Import List NArith ZArith Lia Bool Arith.
From Verif Require Import Base.
Import ListNotations.
Local Open Scope Z_scope.

(** extra25519.go:79-85, one iteration of the loop.  The int32 values here
    stay within [-256, 255], so Go's int32 operators are the integer
    operators: [&], [|], [^] (one argument: complement; two: xor), [>>]
    (arithmetic). *)
Definition feBytesLE_step (x y : Z) (st : Z * Z) : Z * Z :=
  let '(equalSoFar, greater) := st in
  let greater := Z.lor (Z.land (Z.lnot equalSoFar) greater)
                       (Z.land equalSoFar (Z.shiftr (x - y) 31)) in
  let equalSoFar := Z.land equalSoFar (Z.shiftr (Z.lxor x y - 1) 31) in
  (equalSoFar, greater).

(** crypto/internal/ed25519/extra25519/extra25519.go:74-91 *)
Definition byteZ (b : byte) : Z := Z.of_N (Byte.to_N b).

(** The loop [for i := uint(31); i < 32; i--]: from the last byte down to
    byte 0 (the decrement of 0 wraps and ends the loop).  [pairs] lists
    [(a[i], b[i])] in increasing [i]. *)
(** crypto/internal/ed25519/extra25519/extra25519.go:74-91 *)
Fixpoint feBytesLE_loop (pairs : list (byte * byte)) : Z * Z :=
  match pairs with
  | [] => (-1, 0)
  | (x, y) :: rest => feBytesLE_step (byteZ x) (byteZ y) (feBytesLE_loop rest)
  end.

(** extra25519.go:74-88 [feBytesLE], for two arrays of the same length (32 in
    the code). *)
Definition feBytesLE (a b : bytes) : Z :=
  let '(equalSoFar, greater) := feBytesLE_loop (combine a b) in
  Z.land (Z.land (Z.lnot equalSoFar) 1) greater.

(** Little-endian value of a byte string (specification). *)
(** no line of its own in /repo: specification *)
Fixpoint le_value (b : bytes) : Z :=
  match b with [] => 0 | x :: b' => byteZ x + 256 * le_value b' end.

Lemma byteZ_bound b : 0 <= byteZ b <= 255.
Proof. unfold byteZ. pose proof (Byte.to_N_bounded b). lia. Qed.

Lemma byteZ_inj x y : byteZ x = byteZ y -> x = y.
Proof.
  unfold byteZ. intro H. apply N2Z.inj in H.
  assert (K : Some x = Some y) by (rewrite <- (Byte.of_to_N x), <- (Byte.of_to_N y), H; reflexivity).
  congruence.
Qed.

Lemma shiftr31_neg z : -256 <= z < 0 -> Z.shiftr z 31 = -1.
Proof. intro. rewrite Z.shiftr_div_pow2 by lia. symmetry. apply Z.div_unique with (r := z + 2^31); lia. Qed.
Lemma shiftr31_pos z : 0 <= z < 256 -> Z.shiftr z 31 = 0.
Proof. intro. rewrite Z.shiftr_div_pow2 by lia. apply Z.div_small. lia. Qed.

Lemma lxor_byte x y : 0 <= x <= 255 -> 0 <= y <= 255 -> 0 <= Z.lxor x y <= 255.
Proof.
  intros. split; [apply Z.lxor_nonneg; lia|].
  destruct (Z.eq_dec (Z.lxor x y) 0) as [->|N]; [lia|].
  assert (P : 0 <= Z.lxor x y) by (apply Z.lxor_nonneg; lia).
  assert (L : Z.log2 (Z.lxor x y) <= 7).
  { etransitivity; [apply Z.log2_lxor; lia|]. apply Z.max_lub.
    - change 7 with (Z.log2 255). apply Z.log2_le_mono; lia.
    - change 7 with (Z.log2 255). apply Z.log2_le_mono; lia. }
  assert (Z.lxor x y < 2 ^ 8); [|lia].
  apply Z.log2_lt_pow2; lia.
Qed.

(** no line of its own in /repo: specification of the loop state *)
Definition cmp_state (a b : Z) (st : Z * Z) : Prop :=
  (a = b /\ fst st = -1 /\ snd st = 0) \/
  (a < b /\ fst st = 0 /\ snd st = -1) \/
  (b < a /\ fst st = 0 /\ snd st = 0).

Lemma loop_state a b : length a = length b ->
  cmp_state (le_value a) (le_value b) (feBytesLE_loop (combine a b)).
Proof.
  revert b; induction a as [|x a IH]; intros [|y b] L; try discriminate L.
  - left; auto.
  - cbn [combine feBytesLE_loop le_value]. injection L as L.
    pose proof (byteZ_bound x) as Bx. pose proof (byteZ_bound y) as By.
    destruct (feBytesLE_loop (combine a b)) as [e g] eqn:E.
    specialize (IH b L). rewrite E in IH. unfold cmp_state in *. cbn [fst snd] in IH.
    unfold feBytesLE_step. cbn [fst snd].
    destruct IH as [(H & -> & ->)|[(H & -> & ->)|(H & -> & ->)]].
    + rewrite H. change (Z.lnot (-1)) with 0. rewrite Z.land_0_l, Z.lor_0_l, !Z.land_m1_l.
      destruct (Z.lt_trichotomy (byteZ x) (byteZ y)) as [C|[C|C]].
      * right; left. rewrite (shiftr31_neg (byteZ x - byteZ y)) by lia. repeat split; [lia|].
        apply shiftr31_pos. pose proof (lxor_byte _ _ Bx By).
        assert (Z.lxor (byteZ x) (byteZ y) <> 0) by (rewrite Z.lxor_eq_0_iff; lia). lia.
      * left. rewrite C, Z.lxor_nilpotent, Z.sub_diag. repeat split; reflexivity.
      * right; right. rewrite (shiftr31_pos (byteZ x - byteZ y)) by lia. repeat split; [lia|].
        apply shiftr31_pos. pose proof (lxor_byte _ _ Bx By).
        assert (Z.lxor (byteZ x) (byteZ y) <> 0) by (rewrite Z.lxor_eq_0_iff; lia). lia.
    + right; left. change (Z.lnot 0) with (-1). rewrite !Z.land_0_l. repeat split; lia.
    + right; right. change (Z.lnot 0) with (-1). rewrite !Z.land_0_l. repeat split; lia.
Qed.
