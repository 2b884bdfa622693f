(** The base point, the tables of its multiples, and multiplication with them. *)
From Coq Require Import List NArith ZArith Lia Bool Arith Znumtheory Field.
From Verif Require Import Base Extra25519 GoInt FastZ Field FieldSpec FieldFacts FieldBytes EdConst Group NumTheory Fp EdGroup EdOrder Scalar GroupFacts EncFacts MulFacts.
Import ListNotations.
Local Open Scope F_scope.

Lemma By_spec : Z2F 5 * py pB = Z2F 4 /\ parity (px pB) = false.
Proof.
  cbn [px py pB mkP]. unfold parity. rewrite <- Z2F_mul, F2Z_Z2F. split; [apply Z2F_eqp; unfold eqp; apply Z.mod_divide; [pose proof p_pos; lia|]; vm_compute; reflexivity|].
  vm_compute. reflexivity.
Qed.
Lemma B_not_O : pB <> pO.
Proof. intro H. apply (f_equal py) in H. cbn [py pB pO mkP] in H. rewrite F1_def in H. apply Z2F_eq in H. vm_compute in H. discriminate H. Qed.
Definition Bz : Z := fe_value (eZ extendedBaseEl) mod p25519.
Lemma ext_base_ok : ext_ok extendedBaseEl pB.
Proof.
  exists (Z2F Bz). split; [intro H; apply Z2F_zero in H; vm_compute in H; discriminate H|]. cbn [px py pB mkP].
  assert (A : fr 101 (eX extendedBaseEl) (Z2F (Bx * Bz))) by (apply fr_const; vm_compute; reflexivity).
  assert (B : fr 101 (eY extendedBaseEl) (Z2F (By * Bz))) by (apply fr_const; vm_compute; reflexivity).
  assert (C : fr 101 (eZ extendedBaseEl) (Z2F Bz)) by (apply fr_const; vm_compute; reflexivity).
  assert (D : fr 101 (eT extendedBaseEl) (Z2F (Bx * By * Bz))) by (apply fr_const; vm_compute; reflexivity).
  rewrite Z2F_mul in A. rewrite Z2F_mul in B. rewrite !Z2F_mul in D.
  split; [frm A|]. split; [frm B|]. split; [frm C|]. frm D.
Qed.

(** ** Checking an entry of a table *)
Definition iszero (z : Z) : bool := (let r := red z in Z.eqb r 0 || Z.eqb r p25519 || Z.eqb r (2 * p25519) || Z.eqb r (- p25519))%Z.
Lemma iszero_ok z : iszero z = true -> Z2F z = F0.
Proof.
  unfold iszero. cbv zeta. rewrite !orb_true_iff, !Z.eqb_eq. intro H. rewrite <- (Z2F_red z).
  assert (D : (p25519 | red z)%Z).
  { destruct H as [[[H|H]|H]|H]; rewrite H; [exists 0%Z|exists 1%Z|exists 2%Z|exists (-1)%Z]; lia. }
  apply Z2F_zero. apply Z.mod_divide; [pose proof p_pos; lia|exact D].
Qed.
Definition bnd_check (e : precomputed) : bool := fe_boundb 101 (yPlusX e) && fe_boundb 101 (yMinusX e) && fe_boundb 101 (xy2d e).
Definition c_check (e : precomputed) : bool :=
  let a := fe_value (yPlusX e) in let b := fe_value (yMinusX e) in let c := fe_value (xy2d e) in
  iszero (2 * c - mulw dZ (red (mulw (a - b) (a + b)))).
(** the entry [e] is the point [q] *)
Definition first_check (e : precomputed) (q : zp) : bool :=
  let '(x, y, z) := q in let a := fe_value (yPlusX e) in let b := fe_value (yMinusX e) in
  bnd_check e && iszero (mulw (a - b) z - 2 * x) && iszero (mulw (a + b) z - 2 * y) && c_check e.
(** 1/(4d) *)
Definition i4d : Z := 21774842047284482506429428831299246420514751955462597088725269624896613416460.
(** the entry [e'] is the sum of [e] and [s] *)
Definition next_check (e s e' : precomputed) : bool :=
  (let u := red (mulw (fe_value (yPlusX e)) (fe_value (yPlusX s))) in let v := red (mulw (fe_value (yMinusX e)) (fe_value (yMinusX s))) in
   let t := red (mulw (red (mulw (fe_value (xy2d e)) (fe_value (xy2d s)))) i4d) in
   let a := fe_value (yPlusX e') in let b := fe_value (yMinusX e') in
   bnd_check e' && iszero (mulw (a - b) (1 + t) - (u - v)) && iszero (mulw (a + b) (1 - t) - (u + v)) && c_check e')%Z.
Lemma half a b : (F1 + F1) * a = (F1 + F1) * b -> a = b.
Proof. intro H. apply (Fmul_cancel_r _ _ (F1 + F1) F2_neq_0). transitivity ((F1 + F1) * a); [ring|]. rewrite H. ring. Qed.
Lemma entry_ok e Q : bnd_check e = true -> c_check e = true ->
  fval (yPlusX e) - fval (yMinusX e) = (F1 + F1) * px Q -> fval (yPlusX e) + fval (yMinusX e) = (F1 + F1) * py Q -> pre_ok e Q.
Proof.
  unfold bnd_check, c_check. cbv zeta. rewrite !andb_true_iff. intros ((A & B) & C) D X1 X2. apply iszero_ok in D.
  rewrite !Z2F_sub, mulw_ok, !Z2F_mul, Z2F_red, mulw_ok, !Z2F_mul, Z2F_sub, Z2F_add, Z2F_2 in D. fold Fd in D.
  change (Z2F (fe_value (yPlusX e))) with (fval (yPlusX e)) in *. change (Z2F (fe_value (yMinusX e))) with (fval (yMinusX e)) in *.
  change (Z2F (fe_value (xy2d e))) with (fval (xy2d e)) in *.
  set (a := fval (yPlusX e)) in *. set (b := fval (yMinusX e)) in *. set (c := fval (xy2d e)) in *. rewrite Fsub_zero in D.
  split; [|split]; split; try (apply fe_boundb_ok; assumption).
  - apply half. fold a. transitivity ((a + b) + (a - b)); [ring|]. rewrite X1, X2. ring.
  - apply half. fold b. transitivity ((a + b) - (a - b)); [ring|]. rewrite X1, X2. ring.
  - apply half. fold c. rewrite D, X1, X2. ring.
Qed.
Lemma first_check_ok e q Q : first_check e q = true -> zrep q Q -> pre_ok e Q.
Proof.
  destruct q as [[qx qy] qz]. unfold first_check. cbv zeta. rewrite !andb_true_iff. intros (((A & B) & C) & D) (N & X & Y).
  apply iszero_ok in B. apply iszero_ok in C. rewrite !Z2F_sub, mulw_ok, !Z2F_mul, Z2F_sub, Z2F_2, X in B. rewrite !Z2F_sub, mulw_ok, !Z2F_mul, Z2F_add, Z2F_2, Y in C.
  rewrite Fsub_zero in B, C. apply entry_ok; [exact A|exact D| |]; apply (Fmul_cancel_r _ _ (Z2F qz) N); unfold fval; [rewrite B|rewrite C]; ring.
Qed.
Lemma i4d_spec : Z2F i4d * ((F1 + F1) * (F1 + F1) * Fd) = F1.
Proof. rewrite <- Z2F_2, F1_def. unfold Fd. rewrite <- !Z2F_mul. apply Z2F_eq. vm_compute. reflexivity. Qed.
Lemma pre_sum e Q : pre_ok e Q -> fval (yPlusX e) = py Q + px Q /\ fval (yMinusX e) = py Q - px Q /\ fval (xy2d e) = (F1 + F1) * Fd * px Q * py Q.
Proof. intros ((_ & A) & (_ & B) & (_ & C)). rewrite A, B, C. repeat split; ring. Qed.
Lemma next_check_ok e s e' P Q : next_check e s e' = true -> pre_ok e P -> pre_ok s Q -> pre_ok e' (padd P Q).
Proof.
  unfold next_check. cbv zeta. rewrite !andb_true_iff. intros (((A & B) & C) & D) HP HQ.
  destruct (pre_sum _ _ HP) as (P1 & P2 & P3). destruct (pre_sum _ _ HQ) as (Q1 & Q2 & Q3).
  apply iszero_ok in B. apply iszero_ok in C.
  repeat rewrite ?Z2F_red, ?mulw_ok, ?Z2F_mul, ?Z2F_add, ?Z2F_sub in B. repeat rewrite ?Z2F_red, ?mulw_ok, ?Z2F_mul, ?Z2F_add, ?Z2F_sub in C.
  rewrite Z2F_one in B, C. fold (fval (yPlusX e)) (fval (yPlusX s)) (fval (yPlusX e')) (fval (yMinusX e)) (fval (yMinusX s)) (fval (yMinusX e')) (fval (xy2d e)) (fval (xy2d s)) in B, C.
  rewrite Fsub_zero in B, C.
  assert (T : fval (xy2d e) * fval (xy2d s) * Z2F i4d = Fd * px P * px Q * py P * py Q).
  { rewrite P3, Q3. transitivity (Fd * px P * px Q * py P * py Q * (Z2F i4d * ((F1 + F1) * (F1 + F1) * Fd))); [ring|]. rewrite i4d_spec. ring. }
  rewrite T, P1, P2, Q1, Q2 in B. rewrite T, P1, P2, Q1, Q2 in C.
  pose proof (den_plus _ _ _ _ (onP P) (onP Q)) as DP. pose proof (den_minus _ _ _ _ (onP P) (onP Q)) as DM.
  apply entry_ok; [exact A|exact D| |]; cbn [px py padd mkP]; unfold addx, addy; set (t := Fd * px P * px Q * py P * py Q) in *; clearbody t.
  - apply (Fmul_cancel_r _ _ _ DP). rewrite B. set (u := F1 + t) in *. clearbody u. field. exact DP.
  - apply (Fmul_cancel_r _ _ _ DM). rewrite C. set (u := F1 - t) in *. clearbody u. field. exact DM.
Qed.
(** a list of multiples, following [e] in steps of [s] *)
Fixpoint row_check (row : list precomputed) (s e : precomputed) : bool :=
  match row with [] => true | e' :: row' => next_check e s e' && row_check row' s e' end.
Lemma row_check_ok row s P t : pre_ok s (smul t P) -> forall e k, pre_ok e (smul k P) -> row_check row s e = true ->
  forall j, (j < length row)%nat -> pre_ok (nth j row pre_dummy) (smul (k + t * (Z.of_nat j + 1)) P).
Proof.
  intro S. induction row as [|e' row IH]; intros e k Q H j Hj; [cbn [length] in Hj; lia|].
  cbn [row_check] in H. apply andb_true_iff in H. destruct H as [H1 H2].
  assert (N : pre_ok e' (smul (k + t) P)) by (rewrite smul_add; apply (next_check_ok e s); assumption).
  destruct j as [|j]; cbn [nth].
  - change (Z.of_nat 0) with 0%Z. replace (k + t * (0 + 1))%Z with (k + t)%Z by lia. exact N.
  - replace (k + t * (Z.of_nat (Datatypes.S j) + 1))%Z with ((k + t) + t * (Z.of_nat j + 1))%Z by lia.
    apply (IH e'); [exact N|exact H2|cbn [length] in Hj; lia].
Qed.
Definition zof (e : precomputed) : zp := ((fe_value (yPlusX e) - fe_value (yMinusX e))%Z, (fe_value (yPlusX e) + fe_value (yMinusX e))%Z, 2%Z).
Lemma zof_rep e Q : pre_ok e Q -> zrep (zof e) Q.
Proof.
  intro H. destruct (pre_sum _ _ H) as (A & B & _). unfold zrep, zof. rewrite Z2F_sub, Z2F_add, Z2F_2.
  fold (fval (yPlusX e)) (fval (yMinusX e)). rewrite A, B. split; [exact F2_neq_0|]. split; ring.
Qed.
Definition zdbl5 (q : zp) : zp := zdbl (zdbl (zdbl (zdbl (zdbl q)))).
Lemma zdbl5_rep q Q : zrep q Q -> zrep (zdbl5 q) (smul 32 Q).
Proof.
  intro H. unfold zdbl5. apply zdbl_rep in H. rewrite <- smul_2 in H. do 4 (apply zdbl_rep in H; rewrite <- smul_2 in H; rewrite <- smul_mul in H). exact H.
Qed.
(** the rows: the first entry is [q], 256 times that of the row before *)
Fixpoint rows_check (rows : list (list precomputed)) (q : zp) : bool :=
  match rows with
  | [] => true
  | row :: rows' =>
      match row with
      | [] => false
      | e :: row' => Nat.eqb (length row') 7 && first_check e q && row_check row' e e && rows_check rows' (zdbl5 (zof (nth 6 row' pre_dummy)))
      end
  end.
Lemma rows_check_ok rows : forall q P, zrep q P -> rows_check rows q = true ->
  forall i, (i < length rows)%nat -> length (nth i rows []) = 8%nat /\
    forall j, (j < 8)%nat -> pre_ok (nth j (nth i rows []) pre_dummy) (smul ((Z.of_nat j + 1) * 256 ^ Z.of_nat i) P).
Proof.
  induction rows as [|row rows IH]; intros q P Q H i Hi; [cbn [length] in Hi; lia|].
  cbn [rows_check] in H. destruct row as [|e row]; [discriminate H|].
  rewrite !andb_true_iff, Nat.eqb_eq in H. destruct H as (((L & H1) & H2) & H3).
  pose proof (first_check_ok e q P H1 Q) as E.
  assert (R : forall j, (j < 7)%nat -> pre_ok (nth j row pre_dummy) (smul (1 + 1 * (Z.of_nat j + 1)) P)).
  { intros j Hj. apply (row_check_ok row e P 1) with (e := e); rewrite ?smul_1; try assumption. lia. }
  destruct i as [|i]; cbn [nth].
  - split; [cbn [length]; lia|]. intros j Hj. change (256 ^ Z.of_nat 0)%Z with 1%Z. destruct j as [|j]; cbn [nth].
    + rewrite smul_1. exact E.
    + replace ((Z.of_nat (S j) + 1) * 1)%Z with (1 + 1 * (Z.of_nat j + 1))%Z by lia. apply R. lia.
  - specialize (R 6%nat ltac:(lia)). apply zof_rep, zdbl5_rep in R. rewrite <- smul_mul in R. change (32 * (1 + 1 * (Z.of_nat 6 + 1)))%Z with 256%Z in R.
    destruct (IH _ (smul 256 P) R H3 i ltac:(cbn [length] in Hi; lia)) as [L' K]. split; [exact L'|].
    intros j Hj. rewrite Nat2Z.inj_succ, Z.pow_succ_r by lia. replace ((Z.of_nat j + 1) * (256 * 256 ^ Z.of_nat i))%Z with (((Z.of_nat j + 1) * 256 ^ Z.of_nat i) * 256)%Z by lia.
    rewrite smul_mul. now apply K.
Qed.
Lemma base_checked : rows_check base zB = true.
Proof. vm_cast_no_check (eq_refl true). Qed.
Lemma base_length : length base = 32%nat. Proof. reflexivity. Qed.
Lemma base_ok i : (i < 32)%nat -> length (nth i base []) = 8%nat /\
    forall j, (j < 8)%nat -> pre_ok (nth j (nth i base []) pre_dummy) (smul ((Z.of_nat j + 1) * 256 ^ Z.of_nat i) pB).
Proof. intro H. apply (rows_check_ok base zB pB zB_rep base_checked). now rewrite base_length. Qed.
Definition bi_check : bool :=
  match bi with [] => false | e :: row => Nat.eqb (length row) 7 && first_check e zB && row_check row (nth 1 (nth 0 base []) pre_dummy) e end.
Lemma bi_checked : bi_check = true.
Proof. vm_cast_no_check (eq_refl true). Qed.
Lemma bi_length : length bi = 8%nat. Proof. reflexivity. Qed.
Lemma bi_ok j : (j < 8)%nat -> pre_ok (nth j bi pre_dummy) (smul (1 + 2 * Z.of_nat j) pB).
Proof.
  intro H. pose proof bi_checked as C. unfold bi_check in C. pose proof (proj2 (base_ok 0 ltac:(lia)) 1%nat ltac:(lia)) as S2.
  change ((Z.of_nat 1 + 1) * 256 ^ Z.of_nat 0)%Z with 2%Z in S2. set (s2 := nth 1 (nth 0 base []) pre_dummy) in *. clearbody s2.
  destruct bi as [|e row]; [discriminate C|]. rewrite !andb_true_iff, Nat.eqb_eq in C. destruct C as ((L & C1) & C2).
  pose proof (first_check_ok e zB pB C1 zB_rep) as E. destruct j as [|j]; cbn [nth].
  - change (1 + 2 * Z.of_nat 0)%Z with 1%Z. now rewrite smul_1.
  - replace (1 + 2 * Z.of_nat (S j))%Z with (1 + 2 * (Z.of_nat j + 1))%Z by lia.
    apply (row_check_ok row s2 pB 2) with (e := e); [exact S2|now rewrite smul_1|exact C2|lia].
Qed.
Global Opaque base bi.
