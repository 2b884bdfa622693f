(** The field of integers modulo 2^255-19, with Leibniz equality.  Nothing here
    models code. *)
From Coq Require Import List ZArith Lia Bool Znumtheory Zpow_facts Field Eqdep_dec.
From Verif Require Import Field FieldSpec NumTheory.
Import ListNotations.
Local Open Scope Z_scope.

Notation p := p25519.
Lemma p_prime : prime p.
Proof. exact prime_57896044618658097711785492504343953926634992332820282019728792003956564819949. Qed.
Lemma p_pos : 0 < p. Proof. reflexivity. Qed.
Lemma p_gt1 : 1 < p. Proof. reflexivity. Qed.
Global Opaque p25519.

Record F := mkF { F2Z : Z; F_ok : Z.eqb (F2Z mod p) F2Z = true }.
Lemma mod_ok z : Z.eqb ((z mod p) mod p) (z mod p) = true.
Proof. apply Z.eqb_eq. apply Z.mod_mod. pose proof p_pos. lia. Qed.
(** [Z2F], [Finv] and [Fpow] are sealed, so that no tactic ever tries to compute with them. *)
Record Z2F_sealed := { Z2F_f : Z -> F; Z2F_law : forall z, F2Z (Z2F_f z) = z mod p }.
Lemma Z2F_seal : Z2F_sealed. Proof. exists (fun z => mkF (z mod p) (mod_ok z)). reflexivity. Qed.
Definition Z2F : Z -> F := Z2F_f Z2F_seal.
Lemma F2Z_Z2F z : F2Z (Z2F z) = z mod p. Proof. exact (Z2F_law Z2F_seal z). Qed.
Lemma F_ext a b : F2Z a = F2Z b -> a = b.
Proof. destruct a as [a Ha], b as [b Hb]. cbn [F2Z]. intros <-. f_equal. apply UIP_dec, bool_dec. Qed.
Lemma F2Z_range a : 0 <= F2Z a < p.
Proof. destruct a as [a Ha]. cbn [F2Z]. apply Z.eqb_eq in Ha. rewrite <- Ha. apply Z.mod_pos_bound, p_pos. Qed.
Lemma F2Z_mod a : F2Z a mod p = F2Z a.
Proof. apply Z.mod_small, F2Z_range. Qed.
Lemma Z2F_F2Z a : Z2F (F2Z a) = a.
Proof. apply F_ext. rewrite F2Z_Z2F. apply F2Z_mod. Qed.
Lemma Z2F_eq a b : Z2F a = Z2F b <-> a mod p = b mod p.
Proof. split; [intro H; apply (f_equal F2Z) in H|intro H; apply F_ext]; now rewrite !F2Z_Z2F in *. Qed.
Lemma Z2F_eqp a b : eqp a b <-> Z2F a = Z2F b.
Proof.
  rewrite Z2F_eq. pose proof p_pos as P. unfold eqp. split.
  - intros [k H]. replace a with (b + k * p) by lia. apply Z_mod_plus_full.
  - intro H. exists (a / p - b / p). pose proof (Z.div_mod a p ltac:(lia)). pose proof (Z.div_mod b p ltac:(lia)). lia.
Qed.

Record F0_sealed := { F0_f : F; F0_law : F0_f = Z2F 0 }.
Lemma F0_seal : F0_sealed. Proof. exists (Z2F 0). reflexivity. Qed.
Definition F0 : F := F0_f F0_seal.
Lemma F0_def : F0 = Z2F 0. Proof. exact (F0_law F0_seal). Qed.
Record F1_sealed := { F1_f : F; F1_law : F1_f = Z2F 1 }.
Lemma F1_seal : F1_sealed. Proof. exists (Z2F 1). reflexivity. Qed.
Definition F1 : F := F1_f F1_seal.
Lemma F1_def : F1 = Z2F 1. Proof. exact (F1_law F1_seal). Qed.
Record Fadd_sealed := { Fadd_f : F -> F -> F; Fadd_law : forall a b, Fadd_f a b = Z2F (F2Z a + F2Z b) }.
Lemma Fadd_seal : Fadd_sealed. Proof. exists (fun a b => Z2F (F2Z a + F2Z b)). reflexivity. Qed.
Definition Fadd : F -> F -> F := Fadd_f Fadd_seal.
Lemma Fadd_def a b : Fadd a b = Z2F (F2Z a + F2Z b). Proof. exact (Fadd_law Fadd_seal a b). Qed.
Record Fsub_sealed := { Fsub_f : F -> F -> F; Fsub_law : forall a b, Fsub_f a b = Z2F (F2Z a - F2Z b) }.
Lemma Fsub_seal : Fsub_sealed. Proof. exists (fun a b => Z2F (F2Z a - F2Z b)). reflexivity. Qed.
Definition Fsub : F -> F -> F := Fsub_f Fsub_seal.
Lemma Fsub_def a b : Fsub a b = Z2F (F2Z a - F2Z b). Proof. exact (Fsub_law Fsub_seal a b). Qed.
Record Fmul_sealed := { Fmul_f : F -> F -> F; Fmul_law : forall a b, Fmul_f a b = Z2F (F2Z a * F2Z b) }.
Lemma Fmul_seal : Fmul_sealed. Proof. exists (fun a b => Z2F (F2Z a * F2Z b)). reflexivity. Qed.
Definition Fmul : F -> F -> F := Fmul_f Fmul_seal.
Lemma Fmul_def a b : Fmul a b = Z2F (F2Z a * F2Z b). Proof. exact (Fmul_law Fmul_seal a b). Qed.
Record Fopp_sealed := { Fopp_f : F -> F; Fopp_law : forall a, Fopp_f a = Z2F (- F2Z a) }.
Lemma Fopp_seal : Fopp_sealed. Proof. exists (fun a => Z2F (- F2Z a)). reflexivity. Qed.
Definition Fopp : F -> F := Fopp_f Fopp_seal.
Lemma Fopp_def a : Fopp a = Z2F (- F2Z a). Proof. exact (Fopp_law Fopp_seal a). Qed.
Record Fpow_sealed := { Fpow_f : F -> Z -> F; Fpow_law : forall a n, Fpow_f a n = Z2F (F2Z a ^ n) }.
Lemma Fpow_seal : Fpow_sealed. Proof. exists (fun a n => Z2F (F2Z a ^ n)). reflexivity. Qed.
Definition Fpow : F -> Z -> F := Fpow_f Fpow_seal.
Lemma Fpow_def a n : Fpow a n = Z2F (F2Z a ^ n). Proof. exact (Fpow_law Fpow_seal a n). Qed.
Record Finv_sealed := { Finv_f : F -> F; Finv_law : forall a, Finv_f a = Fpow a (p - 2) }.
Lemma Finv_seal : Finv_sealed. Proof. exists (fun a => Fpow a (p - 2)). reflexivity. Qed.
Definition Finv : F -> F := Finv_f Finv_seal.
Lemma Finv_def a : Finv a = Fpow a (p - 2). Proof. exact (Finv_law Finv_seal a). Qed.
Record Fdiv_sealed := { Fdiv_f : F -> F -> F; Fdiv_law : forall a b, Fdiv_f a b = Fmul a (Finv b) }.
Lemma Fdiv_seal : Fdiv_sealed. Proof. exists (fun a b => Fmul a (Finv b)). reflexivity. Qed.
Definition Fdiv : F -> F -> F := Fdiv_f Fdiv_seal.
Lemma Fdiv_def a b : Fdiv a b = Fmul a (Finv b). Proof. exact (Fdiv_law Fdiv_seal a b). Qed.
Definition Feqb (a b : F) : bool := Z.eqb (F2Z a) (F2Z b).
Lemma Feqb_spec a b : Feqb a b = true <-> a = b.
Proof. unfold Feqb. rewrite Z.eqb_eq. split; [apply F_ext|intros ->; reflexivity]. Qed.
Lemma F_dec (a b : F) : {a = b} + {a <> b}.
Proof. destruct (Feqb a b) eqn:E; [left; now apply Feqb_spec|right; intro H; apply Feqb_spec in H; congruence]. Qed.

Lemma Z2F_add a b : Z2F (a + b) = Fadd (Z2F a) (Z2F b).
Proof. apply F_ext. rewrite Fadd_def, !F2Z_Z2F. apply Zplus_mod. Qed.
Lemma Z2F_sub a b : Z2F (a - b) = Fsub (Z2F a) (Z2F b).
Proof. apply F_ext. rewrite Fsub_def, !F2Z_Z2F. apply Zminus_mod. Qed.
Lemma Z2F_mul a b : Z2F (a * b) = Fmul (Z2F a) (Z2F b).
Proof. apply F_ext. rewrite Fmul_def, !F2Z_Z2F. apply Zmult_mod. Qed.
Lemma Z2F_opp a : Z2F (- a) = Fopp (Z2F a).
Proof. apply F_ext. rewrite Fopp_def, !F2Z_Z2F. change (- a) with (0 - a). change (- (a mod p)) with (0 - (a mod p)). now rewrite Zminus_mod_idemp_r. Qed.

Lemma F1_neq_0 : F1 <> F0.
Proof. intro H. apply (f_equal F2Z) in H. rewrite F1_def, F0_def in H. rewrite !F2Z_Z2F in H. pose proof p_gt1. rewrite Z.mod_0_l, Z.mod_small in H by lia. lia. Qed.
Lemma F_nonzero a : a <> F0 -> ~ (p | F2Z a).
Proof.
  intros H D. apply H. apply F_ext. pose proof p_pos. apply Z.mod_divide in D; [|lia].
  rewrite F2Z_mod in D. rewrite D. rewrite F0_def. rewrite F2Z_Z2F. now rewrite Z.mod_0_l by lia.
Qed.
Lemma Finv_l a : a <> F0 -> Fmul (Finv a) a = F1.
Proof.
  intro H. pose proof p_prime as P. pose proof p_gt1. pose proof (fermat p (F2Z a) P (F_nonzero a H)) as Q.
  apply F_ext. rewrite F1_def. rewrite Fmul_def, Finv_def, Fpow_def, !F2Z_Z2F.
  assert (G : p - 2 >= 0) by (pose proof (prime_ge_2 _ P); lia).
  rewrite Zmult_mod_idemp_l.
  rewrite Z.mul_comm, <- Z.pow_succ_r by lia. replace (Z.succ (p - 2)) with (p - 1) by lia. rewrite Q.
  symmetry. apply Z.mod_small. lia.
Qed.
Definition F_field : field_theory F0 F1 Fadd Fmul Fsub Fopp Fdiv Finv (@eq F).
Proof.
  pose proof p_pos. constructor.
  - constructor; intros; apply F_ext; rewrite ?F0_def, ?F1_def; rewrite ?Fadd_def, ?Fmul_def, ?Fsub_def, ?Fopp_def, ?F2Z_Z2F;
    rewrite ?Zplus_mod_idemp_l, ?Zplus_mod_idemp_r, ?Zmult_mod_idemp_l, ?Zmult_mod_idemp_r, ?Zplus_mod_idemp_l, ?Zplus_mod_idemp_r, ?Z.mod_0_l by lia.
    + rewrite Z.add_0_l. apply F2Z_mod.
    + f_equal. ring.
    + f_equal. ring.
    + rewrite Z.mul_1_l. apply F2Z_mod.
    + f_equal. ring.
    + f_equal. ring.
    + f_equal. ring.
    + f_equal.
    + rewrite Z.add_opp_r, Z.sub_diag. now rewrite Z.mod_0_l by lia.
  - exact F1_neq_0.
  - exact Fdiv_def.
  - exact Finv_l.
Qed.
Add Field F_field_inst : F_field.

Declare Scope F_scope.
Delimit Scope F_scope with F.
Infix "+" := Fadd : F_scope.
Infix "-" := Fsub : F_scope.
Infix "*" := Fmul : F_scope.
Infix "/" := Fdiv : F_scope.
Notation "- x" := (Fopp x) : F_scope.

Lemma Fmul_zero a b : Fmul a b = F0 -> a = F0 \/ b = F0.
Proof.
  intro H. destruct (F_dec a F0) as [E|E]; [now left|right].
  assert (b = Fmul (Finv a) (Fmul a b)) as ->. { field. exact E. }
  rewrite H. ring.
Qed.
Lemma Fmul_nonzero a b : a <> F0 -> b <> F0 -> Fmul a b <> F0.
Proof. intros A B H. apply Fmul_zero in H. tauto. Qed.

(** ** Powers *)
Lemma Z2F_pow z n : 0 <= n -> Z2F (z ^ n) = Fpow (Z2F z) n.
Proof. intro N. apply F_ext. rewrite Fpow_def, !F2Z_Z2F. apply pow_mod_eq; [exact N|]. pose proof p_pos. now rewrite Z.mod_mod by lia. Qed.
Lemma Fpow_0 a : Fpow a 0 = F1. Proof. rewrite Fpow_def, F1_def. reflexivity. Qed.
Lemma Fpow_1 a : Fpow a 1 = a. Proof. rewrite Fpow_def, Z.pow_1_r. apply Z2F_F2Z. Qed.
Lemma Fpow_add a m n : 0 <= m -> 0 <= n -> Fpow a (m + n) = Fmul (Fpow a m) (Fpow a n).
Proof. intros. rewrite !Fpow_def, Z.pow_add_r by lia. apply Z2F_mul. Qed.
Lemma Fpow_mul a b n : Fpow (Fmul a b) n = Fmul (Fpow a n) (Fpow b n).
Proof.
  destruct (Z.le_gt_cases 0 n) as [N|N].
  - rewrite <- (Z2F_F2Z a) at 1. rewrite <- (Z2F_F2Z b) at 1. rewrite <- Z2F_mul, <- Z2F_pow by exact N.
    rewrite Z.pow_mul_l, !Fpow_def. apply Z2F_mul.
  - rewrite !Fpow_def, !Z.pow_neg_r by exact N. apply F_ext. rewrite Fmul_def, !F2Z_Z2F. now rewrite Z.mod_0_l by (pose proof p_pos; lia).
Qed.
Lemma Fpow_pow a m n : 0 <= m -> 0 <= n -> Fpow (Fpow a m) n = Fpow a (m * n).
Proof. intros. rewrite (Fpow_def a m), <- Z2F_pow by assumption. now rewrite Fpow_def, Z.pow_mul_r. Qed.
Lemma Fpow_one n : 0 <= n -> Fpow F1 n = F1.
Proof. intro N. rewrite F1_def. rewrite <- Z2F_pow by exact N. now rewrite Z.pow_1_l. Qed.
Lemma Fpow_zero n : 0 < n -> Fpow F0 n = F0.
Proof. intro N. rewrite F0_def. rewrite <- Z2F_pow by lia. now rewrite Z.pow_0_l. Qed.
Lemma Fpow_fermat a : a <> F0 -> Fpow a (p - 1) = F1.
Proof.
  intro H. apply F_ext. rewrite F1_def. rewrite Fpow_def, !F2Z_Z2F, (fermat p (F2Z a) p_prime (F_nonzero a H)).
  symmetry. apply Z.mod_small. pose proof p_gt1. lia.
Qed.
Lemma p_odd : p = 2 * ((p - 1) / 2) + 1. Proof. vm_compute. reflexivity. Qed.
Lemma half_pos : 0 < (p - 1) / 2. Proof. vm_compute. reflexivity. Qed.

(** The quadratic character *)
Definition Fchi (a : F) : F := Fpow a ((p - 1) / 2).
Lemma Fchi_mul a b : Fchi (Fmul a b) = Fmul (Fchi a) (Fchi b).
Proof. apply Fpow_mul. Qed.
Lemma Fchi_square a : a <> F0 -> Fchi (Fmul a a) = F1.
Proof.
  intro H. unfold Fchi. pose proof half_pos. rewrite Fpow_mul, <- Fpow_add by lia.
  replace ((p - 1) / 2 + (p - 1) / 2) with (p - 1) by (pose proof p_odd; lia). now apply Fpow_fermat.
Qed.
Lemma Fsquare_one a : Fmul a a = F1 -> a = F1 \/ a = Fopp F1.
Proof.
  intro H. assert (E : Fmul (Fsub a F1) (Fadd a F1) = F0).
  { replace (Fmul (Fsub a F1) (Fadd a F1)) with (Fsub (Fmul a a) F1) by ring. rewrite H. ring. }
  apply Fmul_zero in E. destruct E as [E|E]; [left|right].
  - replace a with (Fadd (Fsub a F1) F1) by ring. rewrite E. ring.
  - replace a with (Fsub (Fadd a F1) F1) by ring. rewrite E. ring.
Qed.
Lemma Fchi_values a : a <> F0 -> Fchi a = F1 \/ Fchi a = Fopp F1.
Proof. intro H. apply Fsquare_one. rewrite <- Fchi_mul. now apply Fchi_square. Qed.
Lemma Fopp1_neq_1 : Fopp F1 <> F1.
Proof. intro H. apply (f_equal F2Z) in H. rewrite F1_def in H. rewrite Fopp_def, !F2Z_Z2F in H. revert H. vm_compute. discriminate. Qed.
Lemma nonsquare d : Fchi d = Fopp F1 -> forall s, Fmul s s <> d.
Proof.
  intros H s E. destruct (F_dec s F0) as [->|N].
  - assert (d = F0) as -> by (rewrite <- E; ring). unfold Fchi in H. rewrite Fpow_zero in H by apply half_pos.
    apply F1_neq_0. transitivity (Fopp F0); [rewrite H; ring|ring].
  - pose proof (Fchi_square s N) as Q. rewrite E, H in Q. now apply Fopp1_neq_1.
Qed.
Lemma F2_neq_0 : Fadd F1 F1 <> F0.
Proof. intro H. apply (f_equal F2Z) in H. rewrite F1_def, F0_def in H. rewrite Fadd_def, !F2Z_Z2F in H. revert H. vm_compute. discriminate. Qed.

(** Field elements of the code *)
Definition fval (f : fe) : F := Z2F (fe_value f).
Lemma Z2F_pow_eval a n : 0 <= n -> Fpow (Z2F a) n = Z2F (Zpow_mod a n p).
Proof.
  intro N. rewrite <- Z2F_pow by exact N. pose proof p_gt1. apply Z2F_eq.
  rewrite Zpow_mod_correct by lia. now rewrite Z.mod_mod by lia.
Qed.
