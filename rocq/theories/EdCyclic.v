(** The group of the curve is cyclic, so the points killed by L are exactly the
    multiples of the base point.  Nothing here models code. *)
From Coq Require Import List ZArith Lia Bool Znumtheory.
From Verif Require Import FieldSpec NumTheory Fp EdGroup EdOrder Scalar BaseFacts.
Import ListNotations.
Local Open Scope Z_scope.

Lemma L_pos : 0 < L25519. Proof. vm_compute. reflexivity. Qed.
(** the order of [gen] is exactly 8 L *)
Lemma gen_order k : smul k gen = pO -> (8 * L25519 | k).
Proof.
  intro H. set (g := Z.gcd (8 * L25519) k).
  assert (G : smul g gen = pO) by (apply smul_gcd; [exact gen_8L|exact H]).
  assert (G0 : 0 < g).
  { unfold g. pose proof (Z.gcd_nonneg (8 * L25519) k). assert (Z.gcd (8 * L25519) k <> 0); [|lia].
    intro E. apply Z.gcd_eq_0_l in E. pose proof L_pos. lia. }
  destruct (divisors_8L g G0 (Z.gcd_divide_l _ _)) as [E|[E|E]].
  - rewrite <- E. apply Z.gcd_divide_r.
  - destruct gen_4L. now apply (smul_divide g).
  - destruct gen_8. now apply (smul_divide g).
Qed.
Lemma gen_inj a b : 0 <= a < 8 * L25519 -> 0 <= b < 8 * L25519 -> smul a gen = smul b gen -> a = b.
Proof.
  intros A B H. assert (D : (8 * L25519 | a - b)). { apply gen_order. rewrite smul_sub, H. apply padd_opp_r. }
  destruct D as [k K]. assert (k = 0) by nia. lia.
Qed.
(** exactly 8 L points, and all of them multiples of [gen] *)
Theorem cyclic : exists l : list point, NoDup l /\ (forall P, In P l) /\ Z.of_nat (length l) = 8 * L25519 /\
  forall P, exists n, 0 <= n < 8 * L25519 /\ P = smul n gen.
Proof.
  destruct all_points as (l & N & A & B). exists l. split; [exact N|]. split; [exact A|]. pose proof L_pos as LP.
  assert (K : smul (Z.of_nat (length l)) gen = pO).
  { rewrite <- gpow_smul.
    pose proof (lagrange_prod point padd pO padd_assoc padd_comm (padd_O_l pO) gen l N (fun y _ => A _) (fun y z _ _ => padd_cancel_l gen y z)) as Q.
    apply (padd_cancel_l (prod point padd pO l)). rewrite padd_comm, Q. now rewrite padd_O_r. }
  apply gen_order in K. destruct K as [k K].
  assert (E : Z.of_nat (length l) = 8 * L25519).
  { assert (k = 1).
    { assert (2 * p25519 < 2 * (8 * L25519)) by (vm_compute; reflexivity).
      assert (0 < Z.of_nat (length l)) by (destruct l; [destruct (A pO)|cbn [length]; lia]). nia. }
    subst k. lia. }
  split; [exact E|]. intro P.
  set (M := map (fun n => smul (Z.of_nat n) gen) (seq 0 (Z.to_nat (8 * L25519)))).
  assert (NM : NoDup M) by exact (seq_inj_NoDup point (fun z => smul z gen) (8 * L25519) gen_inj).
  assert (LM : length M = length l) by (unfold M; rewrite map_length, seq_length; lia).
  assert (I : incl l M). { apply (NoDup_length_incl NM); [lia|]. intros Q _. apply A. }
  specialize (I P (A P)). apply in_map_iff in I. destruct I as (n & <- & Hn). exists (Z.of_nat n). split; [|reflexivity].
  apply in_seq in Hn. lia.
Qed.
Lemma divide_mul_inv a b c : 0 < a -> (a * b | a * c) -> (b | c).
Proof. intros A [k K]. exists k. nia. Qed.
Lemma sub_multiple P : smul L25519 P = pO -> exists n, P = smul (n * 8) gen.
Proof.
  intro H. destruct cyclic as (_ & _ & _ & _ & C). destruct (C P) as (n & _ & E). rewrite E in H. rewrite <- smul_mul in H. apply gen_order in H.
  rewrite (Z.mul_comm 8) in H. apply (divide_mul_inv _ _ _ L_pos) in H. destruct H as [k K]. exists k. rewrite E, K. reflexivity.
Qed.
(** multiples of the base point *)
Theorem sub_base P : smul L25519 P = pO -> exists x, 0 <= x < L25519 /\ P = smul x pB.
Proof.
  intro H. destruct (sub_multiple P H) as [n En]. destruct (sub_multiple pB B_order) as [b Eb].
  assert (R : rel_prime b L25519).
  { apply rel_prime_sym, prime_rel_prime; [exact L_prime|]. intros [k K]. apply B_not_O. rewrite Eb, K.
    replace (k * L25519 * 8) with (k * (8 * L25519)) by lia. rewrite smul_mul, gen_8L. apply smul_O. }
  apply rel_prime_bezout in R. destruct R as [u v BZ].
  exists ((n * u) mod L25519). split; [apply Z.mod_pos_bound, L_pos|].
  rewrite (smul_mod _ _ _ B_order), Eb, <- smul_mul, En.
  assert (D : n * 8 = n * u * (b * 8) + n * v * (8 * L25519)).
  { transitivity (n * (u * b + v * L25519) * 8); [rewrite BZ; lia|lia]. }
  rewrite D, smul_add, (smul_mul (n * v)), gen_8L, smul_O. now rewrite padd_O_r.
Qed.
(** a point of the subgroup other than O has order L *)
Lemma sub_order P k : smul L25519 P = pO -> P <> pO -> smul k P = pO -> (L25519 | k).
Proof.
  intros S N H. destruct (Z_le_gt_dec 0 0); [|lia]. destruct (Zdivide_dec L25519 k) as [D|D]; [exact D|]. exfalso. apply N.
  pose proof (prime_rel_prime _ L_prime k D) as R. apply Zgcd_1_rel_prime in R. rewrite <- (smul_1 P), <- R. now apply smul_gcd.
Qed.
