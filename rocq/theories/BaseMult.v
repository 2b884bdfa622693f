(** Multiples of the base point by certificate, cheaply: from the table of the code
    (BaseFacts.v), one addition per digit.  Nothing here models code. *)
From Coq Require Import List ZArith Lia Bool Arith.
From Verif Require Import Base Extra25519 GoInt Field FieldSpec FastZ NumTheory Fp EdGroup EdOrder EdConst Group GroupFacts EncFacts BaseFacts VRFSpec.
Import ListNotations.
Local Open Scope Z_scope.

(** Addition of a point given with third coordinate 2 *)
Definition zadd_two (a : zp) (x2 y2 : Z) : zp :=
  let '(x1, y1, z1) := a in
  (let A := 2 * z1 in let B := red (mulw A A) in let C := red (mulw x1 x2) in let D := red (mulw y1 y2) in
   let E := red (mulw (red (mulw dZ C)) D) in let F := B - E in let G := B + E in
   (red (mulw (red (mulw A F)) (red (mulw (x1 + y1) (x2 + y2)) - C - D)), red (mulw (red (mulw A G)) (D + C)), red (mulw F G)))%Z.
Lemma zadd_two_rep a x y P Q : zrep a P -> zrep (x, y, 2%Z) Q -> zrep (zadd_two a x y) (padd P Q).
Proof.
  intros HP HQ. pose proof (zadd_rep _ _ _ _ HP HQ) as H. destruct a as [[x1 y1] z1].
  unfold zrep, zadd, zadd_two in *. cbv zeta in *. repeat rewrite ?Z2F_red, ?mulw_ok, ?Z2F_mul, ?Z2F_add, ?Z2F_sub in *.
  destruct H as (H1 & H2 & H3). set (a := Z2F z1) in *. set (b := Z2F 2) in *.
  replace (b * a)%F with (a * b)%F in * by ring. auto.
Qed.
Definition zopp (a : zp) : zp := let '(x, y, z) := a in (- x, y, z).
Lemma zopp_rep a P : zrep a P -> zrep (zopp a) (popp P).
Proof.
  destruct a as [[x y] z]. unfold zrep, zopp. intros (A & B & D). rewrite Z2F_opp, B. split; [exact A|].
  split; [|exact D]. unfold popp, mkP. cbn [EdGroup.px]. ring.
Qed.
(** A digit: row, size from 1 to 8, sign *)
Definition digit : Type := nat * nat * bool.
Definition digit_ok (d : digit) : bool := let '(i, j, s) := d in (Nat.ltb i 32 && Nat.leb 1 j && Nat.leb j 8)%bool.
Definition digit_value (d : digit) : Z := let '(i, j, s) := d in (if s then -1 else 1) * Z.of_nat j * 256 ^ Z.of_nat i.
Definition digit_point (d : digit) : zp := let '(i, j, s) := d in
  let q := zof (nth (j - 1) (nth i base []) pre_dummy) in if s then zopp q else q.
Fixpoint add_digits (l : list digit) (acc : zp) : zp :=
  match l with
  | [] => acc
  | d :: l => let '(x, y, _) := digit_point d in add_digits l (zadd_two acc x y)
  end.
Definition digits_value (l : list digit) : Z := fold_right (fun d s => digit_value d + s) 0 l.
Lemma digit_rep d : digit_ok d = true -> exists x y, digit_point d = (x, y, 2) /\ zrep (x, y, 2) (smul (digit_value d) pB).
Proof.
  destruct d as [[i j] s]. cbn [digit_ok digit_value digit_point]. rewrite !andb_true_iff, Nat.ltb_lt, !Nat.leb_le. intros [[Hi H1] H8].
  destruct (base_ok i Hi) as [_ B]. specialize (B (j - 1)%nat ltac:(lia)). apply zof_rep in B.
  replace ((Z.of_nat (j - 1) + 1) * 256 ^ Z.of_nat i) with (Z.of_nat j * 256 ^ Z.of_nat i) in B by (f_equal; lia).
  set (e := nth (j - 1) (nth i base []) pre_dummy) in *. clearbody e. unfold zof in *. destruct s.
  - exists (- (fe_value (yPlusX e) - fe_value (yMinusX e))), (fe_value (yPlusX e) + fe_value (yMinusX e)). split; [reflexivity|].
    apply zopp_rep in B. cbn [zopp] in B. rewrite <- Z.mul_assoc. rewrite smul_mul, (smul_opp 1), smul_1. exact B.
  - exists (fe_value (yPlusX e) - fe_value (yMinusX e)), (fe_value (yPlusX e) + fe_value (yMinusX e)). split; [reflexivity|].
    rewrite Z.mul_1_l. exact B.
Qed.
Lemma add_digits_rep l : forallb digit_ok l = true -> forall acc P, zrep acc P -> zrep (add_digits l acc) (padd P (smul (digits_value l) pB)).
Proof.
  induction l as [|d l IH]; intros H acc P R; cbn [add_digits digits_value fold_right].
  - rewrite smul_0, padd_O_r. exact R.
  - cbn [forallb] in H. apply andb_true_iff in H. destruct H as [D H]. destruct (digit_rep d D) as (x & y & E & Q). rewrite E.
    rewrite smul_add, padd_assoc. apply (IH H). now apply zadd_two_rep.
Qed.
Definition zO : zp := (0, 1, 1).
Lemma zO_rep : zrep zO pO.
Proof. unfold zrep, zO. rewrite Z2F_one. split; [exact F1_neq_0|]. unfold pO, mkP. cbn [EdGroup.px EdGroup.py]. rewrite <- F0_def. split; ring. Qed.
Definition zdbl4 (q : zp) : zp := zdbl (zdbl (zdbl (zdbl q))).
Lemma zdbl4_rep q Q : zrep q Q -> zrep (zdbl4 q) (smul 16 Q).
Proof. intro H. unfold zdbl4. apply zdbl_rep in H. rewrite <- smul_2 in H. do 3 (apply zdbl_rep in H; rewrite <- smul_2 in H; rewrite <- smul_mul in H). exact H. Qed.

(** [k B] has the encoding [e]: [lo] and [hi] are the even and odd digits of [k] to
    the base 16, (x, y) the point *)
Definition multiple_is (k : Z) (lo hi : list digit) (x y : Z) (e : Z) : bool :=
  Z.eqb (digits_value lo + 16 * digits_value hi) k && forallb digit_ok lo && forallb digit_ok hi &&
  zeqb (add_digits lo (zdbl4 (add_digits hi zO))) (x, y, 1) &&
  zoncurve x y && Z.eqb (x mod p25519) x && Z.eqb (y mod p25519) y && Z.eqb (y + 2 ^ 255 * Z.b2z (Z.odd x)) e.
Lemma multiple_point k lo hi x y e : multiple_is k lo hi x y e = true -> exists H, smul k pB = mkP (Z2F x) (Z2F y) H.
Proof.
  unfold multiple_is. rewrite !andb_true_iff. intros [[[[[[[V L] H] A] B] D] E] G]. apply Z.eqb_eq in V. exists (zoncurve_ok x y B).
  pose proof (add_digits_rep hi H zO pO zO_rep) as R. apply zdbl4_rep in R. apply (add_digits_rep lo L) in R. rewrite padd_O_l in R.
  assert (S : padd (smul 16 (smul (digits_value hi) pB)) (smul (digits_value lo) pB) = smul k pB).
  { rewrite <- V, smul_add, smul_mul. apply padd_comm. }
  rewrite S in R. exact (proj1 (zeqb_rep _ _ _ _ R (zrep_affine x y (zoncurve_ok x y B))) A).
Qed.
Lemma multiple_ok k lo hi x y e : multiple_is k lo hi x y e = true -> encode (smul k pB) = zbytes 32 e.
Proof.
  intro M. destruct (multiple_point _ _ _ _ _ _ M) as [H Q]. unfold multiple_is in M. rewrite !andb_true_iff in M.
  destruct M as [[[[[[[_ _] _] _] _] D] E] G]. apply Z.eqb_eq in D, E, G.
  unfold encode, enc. rewrite Q. unfold mkP. cbn [EdGroup.px EdGroup.py]. unfold parity. rewrite !F2Z_Z2F. rewrite D, E, G. reflexivity.
Qed.
