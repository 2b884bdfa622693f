(** The group of the curve has exactly 8 L elements, L the order of the base
    point: so 8 L kills every point.  Nothing here models code. *)
From Coq Require Import List ZArith Lia Bool Znumtheory Zpow_facts Field Eqdep_dec FinFun.
From Verif Require Import FastZ FieldSpec NumTheory Fp EdGroup Scalar.
Import ListNotations.
Local Open Scope F_scope.

(** ** Computing with projective coordinates *)
Definition zp : Type := Z * Z * Z.
Definition zrep (a : zp) (P : point) : Prop :=
  let '(x, y, z) := a in Z2F z <> F0 /\ Z2F x = px P * Z2F z /\ Z2F y = py P * Z2F z.
Lemma Z2F_one : Z2F 1 = F1. Proof. symmetry. apply F1_def. Qed.
Lemma Z2F_two : Z2F 2 = F1 + F1. Proof. change 2%Z with (1 + 1)%Z. now rewrite Z2F_add, Z2F_one. Qed.
Definition red1 (z : Z) : Z := (Z.land z (Z.ones 255) + 19 * Z.shiftr z 255)%Z.
Definition red (z : Z) : Z := red1 (red1 z).
Lemma Z2F_mod z : Z2F (z mod p25519) = Z2F z.
Proof. apply Z2F_eq. apply Z.mod_mod. pose proof p_pos. lia. Qed.
Lemma p_val : p25519 = (2 ^ 255 - 19)%Z. Proof. reflexivity. Qed.
Lemma Z2F_red1 z : Z2F (red1 z) = Z2F z.
Proof.
  unfold red1. rewrite Z.land_ones, Z.shiftr_div_pow2 by lia. apply Z2F_eqp. unfold eqp.
  exists (- (z / 2 ^ 255))%Z. rewrite p_val. pose proof (Z.div_mod z (2 ^ 255) ltac:(lia)). lia.
Qed.
Lemma Z2F_red z : Z2F (red z) = Z2F z.
Proof. unfold red. now rewrite !Z2F_red1. Qed.
Definition zadd (a b : zp) : zp :=
  let '(x1, y1, z1) := a in let '(x2, y2, z2) := b in
  (let A := red (z1 * z2) in let B := red (A * A) in let C := red (x1 * x2) in let D := red (y1 * y2) in
  let E := red (red (dZ * C) * D) in let F := B - E in let G := B + E in
  (red (red (A * F) * (red ((x1 + y1) * (x2 + y2)) - C - D)), red (red (A * G) * (D + C)), red (F * G)))%Z.
Lemma zadd_rep a b P Q : zrep a P -> zrep b Q -> zrep (zadd a b) (padd P Q).
Proof.
  destruct a as [[x1 y1] z1], b as [[x2 y2] z2]. unfold zrep, zadd. cbv zeta.
  intros (Z1 & X1 & Y1) (Z2 & X2 & Y2).
  repeat rewrite ?Z2F_red, ?Z2F_mul, ?Z2F_add, ?Z2F_sub. fold Fd.
  pose proof (den_plus _ _ _ _ (onP P) (onP Q)) as DP. pose proof (den_minus _ _ _ _ (onP P) (onP Q)) as DM.
  rewrite X1, X2, Y1, Y2. cbn [px py padd mkP]. unfold addx, addy.
  generalize dependent (Z2F z1). generalize dependent (Z2F z2). intros w2 Z2 X2 Y2 w1 Z1 X1 Y1. clear X1 X2 Y1 Y2.
  set (t := Fd * px P * px Q * py P * py Q) in *.
  set (a := px P) in *. set (b := py P) in *. set (c := px Q) in *. set (e := py Q) in *.
  assert (K : (w1 * w2 * (w1 * w2) - Fd * (a * w1 * (c * w2)) * (b * w1 * (e * w2))) * (w1 * w2 * (w1 * w2) + Fd * (a * w1 * (c * w2)) * (b * w1 * (e * w2)))
    = w1 * w1 * w1 * w1 * w2 * w2 * w2 * w2 * (F1 - t) * (F1 + t)) by (unfold t; ring).
  repeat split.
  - rewrite K. repeat apply Fmul_nonzero; assumption.
  - rewrite K. transitivity ((a * e + b * c) * w1 * w1 * w1 * w1 * w2 * w2 * w2 * w2 * (F1 - t)); [unfold t; ring|].
    set (u := F1 + t) in *. field. exact DP.
  - rewrite K. transitivity ((b * e + a * c) * w1 * w1 * w1 * w1 * w2 * w2 * w2 * w2 * (F1 + t)); [unfold t; ring|].
    set (u := F1 - t) in *. field. exact DM.
Qed.
(** Doubling, and addition of a point given in affine coordinates *)
Definition zdbl (a : zp) : zp :=
  let '(x, y, z) := a in
  (let s := x + y in let B := red (mulw s s) in let C := red (mulw x x) in let D := red (mulw y y) in
   let F := D - C in let J := F - 2 * red (mulw z z) in
   (red (mulw (B - C - D) J), - red (mulw F (C + D)), red (mulw F J)))%Z.
Lemma zdbl_rep a P : zrep a P -> zrep (zdbl a) (padd P P).
Proof.
  destruct a as [[x1 y1] z1]. unfold zrep, zdbl. cbv zeta. intros (Z1 & X1 & Y1).
  pose proof (onP P) as On. pose proof (den_plus _ _ _ _ On On) as DP. pose proof (den_minus _ _ _ _ On On) as DM. unfold oncurve in On.
  repeat rewrite ?Z2F_red, ?mulw_ok, ?Z2F_mul, ?Z2F_add, ?Z2F_sub, ?Z2F_opp. rewrite Z2F_two.
  rewrite X1, Y1. cbn [px py padd mkP]. unfold addx, addy.
  generalize dependent (Z2F z1). intros w Z1 X1 Y1. clear X1 Y1.
  set (a := px P) in *. set (b := py P) in *. set (t := Fd * a * a * b * b) in *.
  assert (T : F1 + t = b * b - a * a) by (rewrite On; unfold t; ring).
  assert (T' : F1 - t = (F1 + F1) - (b * b - a * a)) by (rewrite <- T; ring).
  assert (K1 : b * w * (b * w) - a * w * (a * w) = w * w * (F1 + t)) by (rewrite T; ring).
  assert (K2 : b * w * (b * w) - a * w * (a * w) - (F1 + F1) * (w * w) = - (w * w * (F1 - t))) by (rewrite T'; ring).
  rewrite K2, K1. clearbody t. repeat split.
  - replace (w * w * (F1 + t) * - (w * w * (F1 - t))) with (- F1 * (w * w * w * w * (F1 + t) * (F1 - t))) by ring.
    apply Fmul_nonzero; [|repeat apply Fmul_nonzero; assumption]. intro H. apply F1_neq_0. transitivity (- (- F1)); [ring|]. rewrite H. ring.
  - set (u := F1 + t) in *. clearbody u. field. exact DP.
  - set (u := F1 - t) in *. clearbody u. field. exact DM.
Qed.
Definition zadd_affine (a : zp) (x2 y2 : Z) : zp :=
  let '(x1, y1, z1) := a in
  (let B := red (mulw z1 z1) in let C := red (mulw x1 x2) in let D := red (mulw y1 y2) in
   let E := red (mulw (red (mulw dZ C)) D) in let F := B - E in let G := B + E in
   (red (mulw (red (mulw z1 F)) (red (mulw (x1 + y1) (x2 + y2)) - C - D)), red (mulw (red (mulw z1 G)) (D + C)), red (mulw F G)))%Z.
Lemma zadd_affine_rep a x y P Q : zrep a P -> zrep (x, y, 1%Z) Q -> zrep (zadd_affine a x y) (padd P Q).
Proof.
  intros HP HQ. pose proof (zadd_rep _ _ _ _ HP HQ) as H. destruct a as [[x1 y1] z1].
  unfold zrep, zadd, zadd_affine in *. cbv zeta in *. repeat rewrite ?Z2F_red, ?mulw_ok, ?Z2F_mul, ?Z2F_add, ?Z2F_sub in *.
  rewrite Z2F_one in H. destruct H as (H1 & H2 & H3). set (a := Z2F z1) in *.
  replace (a * F1) with a in * by ring. auto.
Qed.
Lemma smul_xO k P : smul (Zpos (xO k)) P = smul (Zpos k) (padd P P).
Proof. rewrite Pos2Z.inj_xO, Z.mul_comm, smul_mul. now rewrite smul_2. Qed.
Lemma smul_xI k P : smul (Zpos (xI k)) P = padd P (smul (Zpos k) (padd P P)).
Proof. rewrite Pos2Z.inj_xI, smul_add, smul_1, padd_comm, Z.mul_comm, smul_mul. now rewrite smul_2. Qed.
Lemma zsmul_rep k : forall a P, zrep a P -> zrep (Pos.iter_op zadd k a) (smul (Zpos k) P).
Proof.
  induction k as [k IH|k IH|]; intros a P H; cbn [Pos.iter_op].
  - rewrite smul_xI. apply zadd_rep; [exact H|]. apply IH. now apply zadd_rep.
  - rewrite smul_xO. apply IH. now apply zadd_rep.
  - now rewrite smul_1.
Qed.
(** Equality with the neutral element, on projective coordinates *)
Definition zisO (a : zp) : bool := let '(x, y, z) := a in (Z.eqb (x mod p25519) 0 && Z.eqb ((y - z) mod p25519) 0)%Z.
Lemma Z2F_zero z : Z2F z = F0 <-> (z mod p25519 = 0)%Z.
Proof. rewrite F0_def, Z2F_eq, Z.mod_0_l; [reflexivity|]. pose proof p_pos. lia. Qed.
Lemma Fmul_cancel_r a b c : c <> F0 -> a * c = b * c -> a = b.
Proof. intros C H. transitivity ((a * c) / c); [field; exact C|]. rewrite H. field. exact C. Qed.
Lemma zisO_rep a P : zrep a P -> zisO a = true <-> P = pO.
Proof.
  destruct a as [[x y] z]. unfold zrep, zisO. intros (N & X & Y). rewrite andb_true_iff, !Z.eqb_eq, <- !Z2F_zero, Z2F_sub, X, Y. split.
  - intros [A B]. apply point_ext; cbn [px py pO mkP].
    + apply (Fmul_cancel_r _ _ (Z2F z) N). rewrite A. ring.
    + apply (Fmul_cancel_r _ _ (Z2F z) N). transitivity (py P * Z2F z - Z2F z + Z2F z); [ring|]. rewrite B. ring.
  - intros ->. cbn [px py pO mkP]. split; ring.
Qed.
Definition zeqb (a b : zp) : bool :=
  let '(x1, y1, z1) := a in let '(x2, y2, z2) := b in
  (Z.eqb ((x1 * z2 - x2 * z1) mod p25519) 0 && Z.eqb ((y1 * z2 - y2 * z1) mod p25519) 0)%Z.
Lemma Fsub_zero a b : a - b = F0 <-> a = b.
Proof. split; [intro H; transitivity ((a - b) + b); [ring|rewrite H; ring]|intros ->; ring]. Qed.
Lemma zeqb_rep a b P Q : zrep a P -> zrep b Q -> zeqb a b = true <-> P = Q.
Proof.
  destruct a as [[x y] z], b as [[x' y'] z']. unfold zrep, zeqb. intros (N & X & Y) (N' & X' & Y').
  rewrite andb_true_iff, !Z.eqb_eq, <- !Z2F_zero, !Z2F_sub, !Z2F_mul, X, Y, X', Y', !Fsub_zero. split.
  - intros [A B]. apply point_ext.
    + apply (Fmul_cancel_r _ _ (Z2F z * Z2F z')); [now apply Fmul_nonzero|]. transitivity (px P * Z2F z * Z2F z'); [ring|]. rewrite A. ring.
    + apply (Fmul_cancel_r _ _ (Z2F z * Z2F z')); [now apply Fmul_nonzero|]. transitivity (py P * Z2F z * Z2F z'); [ring|]. rewrite B. ring.
  - intros ->. split; ring.
Qed.
Definition zoncurve (x y : Z) : bool := Z.eqb ((y * y - x * x - 1 - dZ * (x * x) * (y * y)) mod p25519) 0.
Lemma zoncurve_ok x y : zoncurve x y = true -> oncurve (Z2F x) (Z2F y).
Proof.
  unfold zoncurve, oncurve. rewrite Z.eqb_eq, <- Z2F_zero, !Z2F_sub, !Z2F_mul, <- F1_def. fold Fd. intro H.
  apply Fsub_zero. rewrite <- H. ring.
Qed.
Lemma zrep_affine x y H : zrep (x, y, 1%Z) (mkP (Z2F x) (Z2F y) H).
Proof. unfold zrep. rewrite <- F1_def. cbn [px py mkP]. repeat split; [exact F1_neq_0|ring|ring]. Qed.

(** ** A point is determined by its second coordinate and the parity of its first *)
Lemma den_y y : F1 + Fd * (y * y) <> F0.
Proof.
  intro H. assert (y <> F0). { intros ->. apply F1_neq_0. rewrite <- H. ring. }
  apply (Fd_nonsquare (Fi / y)). transitivity ((Fi * Fi) / (y * y)); [field; assumption|]. rewrite Fi_square.
  transitivity ((Fd * (y * y) - (F1 + Fd * (y * y))) / (y * y)); [field; assumption|]. rewrite H. field. assumption.
Qed.
Lemma same_y x x' y : oncurve x y -> oncurve x' y -> x' = x \/ x' = - x.
Proof.
  unfold oncurve. intros H H'.
  assert (E : (x - x') * (x + x') * (F1 + Fd * (y * y)) = F0).
  { transitivity ((F1 + Fd * (x * x) * (y * y)) - (y * y - x * x) - ((F1 + Fd * (x' * x') * (y * y)) - (y * y - x' * x'))); [ring|].
    rewrite <- H, <- H'. ring. }
  apply Fmul_zero in E. destruct E as [E|E]; [|destruct (den_y y E)].
  apply Fmul_zero in E. destruct E as [E|E].
  - left. symmetry. now apply Fsub_zero.
  - right. transitivity ((x + x') - x); [ring|]. rewrite E. ring.
Qed.
Definition parity (x : F) : bool := Z.odd (F2Z x).
Lemma p_is_odd : Z.odd p25519 = true. Proof. vm_compute. reflexivity. Qed.
Lemma parity_opp x : x <> F0 -> parity (- x) = negb (parity x).
Proof.
  intro N. unfold parity. rewrite Fopp_def, F2Z_Z2F. pose proof (F2Z_range x) as R.
  assert (F2Z x <> 0%Z). { intro E. apply N. rewrite <- (Z2F_F2Z x), E. symmetry. exact F0_def. }
  assert (((- F2Z x) mod p25519)%Z = (p25519 - F2Z x)%Z) as ->.
  { symmetry. apply Z.mod_unique with (-1)%Z; lia. }
  rewrite Z.odd_sub, p_is_odd. now destruct (Z.odd (F2Z x)).
Qed.
Lemma point_parity_inj P Q : py P = py Q -> parity (px P) = parity (px Q) -> P = Q.
Proof.
  intros Y X. apply point_ext; [|exact Y]. pose proof (onP P) as A. pose proof (onP Q) as B. rewrite Y in A.
  destruct (same_y _ _ _ B A) as [E|E]; [exact E|].
  destruct (F_dec (px Q) F0) as [Z|Z]; [rewrite E, Z; ring|].
  rewrite E, parity_opp in X by exact Z. now destruct (parity (px Q)).
Qed.

(** ** Counting *)
Lemma seq_inj_NoDup (A : Type) (f : Z -> A) (m : Z) :
  (forall a b, 0 <= a < m -> 0 <= b < m -> f a = f b -> a = b)%Z ->
  NoDup (map (fun n => f (Z.of_nat n)) (seq 0 (Z.to_nat m))).
Proof.
  intro I. assert (N : NoDup (seq 0 (Z.to_nat m))) by apply seq_NoDup.
  assert (R : forall n, In n (seq 0 (Z.to_nat m)) -> (0 <= Z.of_nat n < m)%Z).
  { intros n Hn. apply in_seq in Hn. lia. }
  induction (seq 0 (Z.to_nat m)) as [|a l IH]; cbn [map]; constructor.
  - rewrite in_map_iff. intros (b & E & Hb). apply I in E; [|apply R; now right|apply R; now left].
    apply Nat2Z.inj in E. subst b. inversion N. contradiction.
  - apply IH; [now inversion N|]. intros n Hn. apply R. now right.
Qed.
Lemma all_F : exists l : list F, NoDup l /\ (forall a, In a l) /\ Z.of_nat (length l) = p25519.
Proof.
  pose proof p_pos as P. exists (map (fun n => Z2F (Z.of_nat n)) (seq 0 (Z.to_nat p25519))). split; [|split].
  - apply seq_inj_NoDup. intros a b A B E. apply Z2F_eq in E. now rewrite !Z.mod_small in E by assumption.
  - intro a. apply in_map_iff. exists (Z.to_nat (F2Z a)). pose proof (F2Z_range a). split.
    + rewrite Z2Nat.id by lia. apply Z2F_F2Z.
    + apply in_seq. lia.
  - rewrite map_length, seq_length. lia.
Qed.
Lemma point_dec (P Q : point) : {P = Q} + {P <> Q}.
Proof.
  destruct (F_dec (px P) (px Q)) as [X|X]; [|right; now intros ->].
  destruct (F_dec (py P) (py Q)) as [Y|Y]; [|right; now intros ->].
  left. now apply point_ext.
Qed.
Definition mk_opt (x y : F) : list point :=
  match bool_dec (oncurveb x y) true with left H => [mkPoint x y H] | right _ => [] end.
Lemma all_points : exists l : list point, NoDup l /\ (forall P, In P l) /\ (Z.of_nat (length l) <= 2 * p25519)%Z.
Proof.
  destruct all_F as (lF & N & A & L).
  set (l0 := flat_map (fun y => flat_map (fun x => mk_opt x y) lF) lF).
  exists (nodup point_dec l0). split; [apply NoDup_nodup|].
  assert (C : forall P, In P (nodup point_dec l0)).
  { intro P. apply nodup_In. unfold l0. apply in_flat_map. exists (py P). split; [apply A|].
    apply in_flat_map. exists (px P). split; [apply A|]. unfold mk_opt.
    destruct (bool_dec (oncurveb (px P) (py P)) true) as [H|H]; [|destruct (H (p_on P))].
    left. apply point_ext; reflexivity. }
  split; [exact C|].
  set (g := fun P => (py P, parity (px P))).
  assert (K : (length (map g (nodup point_dec l0)) <= length (list_prod lF [false; true]))%nat).
  { apply NoDup_incl_length.
    - apply Injective_map_NoDup; [|apply NoDup_nodup]. intros P Q E. injection E as E1 E2. now apply point_parity_inj.
    - intros [y b] _. apply in_prod; [apply A|]. destruct b; cbn; tauto. }
  rewrite map_length, prod_length in K. cbn [length] in K. lia.
Qed.
Lemma gpow_smul n P : gpow point padd pO P n = smul (Z.of_nat n) P.
Proof.
  induction n as [|n IH]; [reflexivity|]. rewrite Nat2Z.inj_succ, smul_succ, <- IH. reflexivity.
Qed.
Theorem lagrange : exists n : Z, (0 < n <= 2 * p25519)%Z /\ forall P, smul n P = pO.
Proof.
  destruct all_points as (l & N & A & B). exists (Z.of_nat (length l)). split.
  - destruct l as [|a l]; [destruct (A pO)|]. split; [cbn [length]; lia|exact B].
  - intro P. rewrite <- gpow_smul.
    pose proof (lagrange_prod point padd pO padd_assoc padd_comm (padd_O_l pO) P l N (fun y _ => A _) (fun y z _ _ => padd_cancel_l P y z)) as Q.
    apply (padd_cancel_l (prod point padd pO l)). rewrite padd_comm, Q. now rewrite padd_O_r.
Qed.

(** ** A point of order 8 L *)
Lemma L_prime : prime L25519.
Proof. exact prime_7237005577332262213973186563042994240857116359379907606001950938285454250989. Qed.
(** The base point of RFC 8032: second coordinate 4/5, first one even *)
Definition Bx : Z := 15112221349535400772501151409588531511454012693041857206046113283949847762202.
Definition By : Z := 46316835694926478169428394003475163141307993866256225615783033603165251855960.
Definition pB : point := mkP (Z2F Bx) (Z2F By) (zoncurve_ok Bx By ltac:(vm_compute; reflexivity)).
Definition zB : zp := (Bx, By, 1%Z).
Lemma zB_rep : zrep zB pB. Proof. apply zrep_affine. Qed.
Fixpoint zmul (k : positive) (x y : Z) : zp :=
  match k with
  | xH => (x, y, 1%Z)
  | xO k' => zdbl (zmul k' x y)
  | xI k' => zadd_affine (zdbl (zmul k' x y)) x y
  end.
Lemma zmul_rep k x y P : zrep (x, y, 1%Z) P -> zrep (zmul k x y) (smul (Zpos k) P).
Proof.
  intro H. induction k as [k IH|k IH|]; cbn [zmul].
  - rewrite Pos2Z.inj_xI, smul_add, smul_1, smul_mul, smul_2. apply zadd_affine_rep; [|exact H]. now apply zdbl_rep.
  - rewrite Pos2Z.inj_xO, smul_mul, smul_2. now apply zdbl_rep.
  - now rewrite smul_1.
Qed.
Lemma smul_isO n x y P : zrep (x, y, 1%Z) P -> smul (Zpos n) P = pO <-> zisO (zmul n x y) = true.
Proof. intro H. symmetry. apply zisO_rep. now apply zmul_rep. Qed.
Lemma B_order : smul L25519 pB = pO.
Proof.
  change L25519 with (Zpos (Z.to_pos L25519)). apply (smul_isO _ _ _ _ zB_rep). vm_cast_no_check (eq_refl true).
Qed.
(** a point of order 8 *)
Definition Tx : Z := 14399317868200118260347934320527232580618823971194345261214217575416788799818.
Definition Ty : Z := 55188659117513257062467267217118295137698188065244968500265048394206261417927.
Definition pT : point := mkP (Z2F Tx) (Z2F Ty) (zoncurve_ok Tx Ty ltac:(vm_compute; reflexivity)).
Lemma zT_rep : zrep (Tx, Ty, 1%Z) pT. Proof. apply zrep_affine. Qed.
Lemma T_8 : smul 8 pT = pO.
Proof. apply (smul_isO 8 _ _ _ zT_rep). vm_cast_no_check (eq_refl true). Qed.
Lemma T_4 : smul 4 pT <> pO.
Proof. rewrite (smul_isO 4 _ _ _ zT_rep). apply not_true_iff_false. vm_cast_no_check (eq_refl false). Qed.
Lemma B_8 : smul 8 pB <> pO.
Proof. rewrite (smul_isO 8 _ _ _ zB_rep). apply not_true_iff_false. vm_cast_no_check (eq_refl false). Qed.
Definition gen : point := padd pB pT.
Lemma gen_8L : smul (8 * L25519) gen = pO.
Proof.
  unfold gen. rewrite smul_padd, smul_mul, B_order, smul_O, padd_O_l, Z.mul_comm, smul_mul, T_8. apply smul_O.
Qed.
Lemma gen_4L : smul (4 * L25519) gen <> pO.
Proof.
  unfold gen. rewrite smul_padd, smul_mul, B_order, smul_O, padd_O_l. intro H. apply T_4.
  replace 4%Z with (4 * L25519 - ((L25519 - 1) / 2) * 8)%Z by (vm_compute; reflexivity).
  rewrite smul_sub, H, padd_O_l, smul_mul, T_8, smul_O. rewrite <- (padd_O_l (popp pO)). apply padd_opp_r.
Qed.
Lemma gen_8 : smul 8 gen <> pO.
Proof. unfold gen. rewrite smul_padd, T_8, padd_O_r. exact B_8. Qed.
Lemma divisors_8L g : (0 < g)%Z -> (g | 8 * L25519)%Z -> g = (8 * L25519)%Z \/ (g | 4 * L25519)%Z \/ (g | 8)%Z.
Proof.
  intros G [k E]. pose proof L_prime as LP. pose proof (prime_ge_2 _ LP). set (m := L25519) in *. clearbody m.
  assert (0 < k)%Z by nia. destruct (Z.eq_dec k 1) as [->|K]; [left; lia|right].
  destruct (prime_divisor_exists k ltac:(lia)) as (r & R & [j J]).
  assert (D : (r | 8 * m)%Z) by (exists (j * g)%Z; lia).
  apply prime_mult in D; [|exact R]. destruct D as [D|D].
  - left. assert (r = 2)%Z as ->.
    { change 8%Z with (2 * (2 * 2))%Z in D. apply prime_mult in D; [|exact R].
      assert (D' : (r | 2)%Z) by (destruct D as [D|D]; [exact D|apply prime_mult in D; tauto]).
      apply prime_div_prime; [exact R|exact prime_2|exact D']. }
    exists j. lia.
  - right. assert (r = m) as -> by (apply prime_div_prime; assumption). exists j. nia.
Qed.
Lemma smul_divide g n P : (g | n)%Z -> smul g P = pO -> smul n P = pO.
Proof. intros [k ->] H. now rewrite smul_mul, H, smul_O. Qed.
(** The group has 8 L elements *)
Theorem order_8L P : smul (8 * L25519) P = pO.
Proof.
  destruct lagrange as (n & N & A).
  set (g := Z.gcd (8 * L25519) n).
  assert (G : smul g gen = pO) by (apply smul_gcd; [exact gen_8L|apply A]).
  assert (G0 : (0 < g)%Z).
  { unfold g. pose proof (Z.gcd_nonneg (8 * L25519) n). assert (Z.gcd (8 * L25519) n <> 0)%Z; [|lia].
    intro E. apply Z.gcd_eq_0_r in E. lia. }
  destruct (divisors_8L g G0 (Z.gcd_divide_l _ _)) as [E|[E|E]].
  - destruct (Z.gcd_divide_r (8 * L25519) n) as [k K]. fold g in K. rewrite E in K.
    assert (k = 1)%Z.
    { assert (2 * p25519 < 2 * (8 * L25519))%Z by (vm_compute; reflexivity).
      assert (0 < 8 * L25519)%Z by (vm_compute; reflexivity). nia. }
    subst k. rewrite Z.mul_1_l in K. rewrite <- K. apply A.
  - destruct gen_4L. now apply (smul_divide g).
  - destruct gen_8. now apply (smul_divide g).
Qed.
