(** The group of the twisted Edwards curve -x^2 + y^2 = 1 + d x^2 y^2 over the
    integers modulo 2^255-19, with its complete addition law.  Nothing here
    models code: it is the mathematical object the code is compared with. *)
From Coq Require Import List ZArith Lia Bool Znumtheory Zpow_facts Field Eqdep_dec.
From Verif Require Import FieldSpec NumTheory Fp.
Import ListNotations.
Local Open Scope F_scope.

(** d = -121665/121666 *)
Definition dZ : Z := 37095705934669439343138083508754565189542113879843219016388785533085940283555.
(** a square root of -1, namely 2^((p-1)/4) *)
Definition iZ : Z := 19681161376707505956807079304988542015446066515923890162744021073123829784752.
Definition Fd : F := Z2F dZ.
Definition Fi : F := Z2F iZ.
Lemma Fd_spec : Fd * Z2F 121666 = Z2F (-121665).
Proof. unfold Fd. rewrite <- Z2F_mul. apply Z2F_eq. vm_compute. reflexivity. Qed.
Lemma Fi_square : Fi * Fi = - F1.
Proof. unfold Fi. rewrite F1_def. rewrite <- Z2F_mul, <- Z2F_opp. apply Z2F_eq. vm_compute. reflexivity. Qed.
(* 2 = -i (1+i)^2, and i is not a square since (p-1)/4 is odd *)
Lemma Fchi_i : Fchi Fi = - F1.
Proof.
  unfold Fchi. assert (E : ((p25519 - 1) / 2 = 2 * (2 * ((p25519 - 5) / 8) + 1))%Z) by (vm_compute; reflexivity). rewrite E.
  assert (K : (0 <= (p25519 - 5) / 8)%Z) by (vm_compute; intro Q; discriminate Q). set (k := ((p25519 - 5) / 8)%Z) in *. clearbody k.
  assert (S2 : forall a, Fpow a 2 = a * a).
  { intro a. change 2%Z with (1 + 1)%Z. rewrite Fpow_add by lia. now rewrite Fpow_1. }
  rewrite <- Fpow_pow by lia. rewrite S2, Fi_square. rewrite Fpow_add by lia. rewrite <- (Fpow_pow _ 2 k) by lia. rewrite S2, Fpow_1.
  replace (- F1 * - F1) with F1 by ring. rewrite Fpow_one by lia. ring.
Qed.
Lemma Fchi_m1 : Fchi (- F1) = F1.
Proof.
  rewrite <- Fi_square. apply Fchi_square. intro H. apply F1_neq_0. transitivity (- (Fi * Fi)); [rewrite Fi_square; ring|rewrite H; ring].
Qed.
Lemma Fchi_2 : Fchi (F1 + F1) = - F1.
Proof.
  replace (F1 + F1) with (- F1 * Fi * ((F1 + Fi) * (F1 + Fi))).
  - rewrite !(Fchi_mul (- F1 * Fi)), Fchi_mul, Fchi_m1, Fchi_i, Fchi_square; [ring|].
    intro H. assert (Q : Fi = - F1) by (transitivity ((F1 + Fi) - F1); [ring|rewrite H; ring]).
    pose proof Fi_square as S. rewrite Q in S. apply Fopp1_neq_1. rewrite <- S. ring.
  - transitivity (- Fi * (F1 + Fi * Fi) - (F1 + F1) * (Fi * Fi)); [ring|]. rewrite Fi_square. ring.
Qed.
Lemma twice_square_chi a w : w <> F0 -> (F1 + F1) * (w * w) = a -> Fchi a = - F1.
Proof. intros W <-. rewrite Fchi_mul, Fchi_2, Fchi_square by exact W. ring. Qed.
Lemma Fd_nonsquare s : s * s <> Fd.
Proof.
  revert s. apply nonsquare. apply (twice_square_chi _ (Z2F 30152228160694284937144285544751646460505239448795619900082871953631125353365)).
  - rewrite F0_def, Z2F_eq. intro H. revert H. vm_compute. discriminate.
  - unfold Fd. rewrite F1_def, <- Z2F_add, <- !Z2F_mul. apply Z2F_eq. vm_compute. reflexivity.
Qed.
Lemma Fd_neq_0 : Fd <> F0.
Proof. intro H. apply (Fd_nonsquare F0). rewrite H. ring. Qed.
Lemma Fi_neq_0 : Fi <> F0.
Proof. intro H. pose proof Fi_square as Q. rewrite H in Q. apply F1_neq_0. transitivity (- (F0 * F0)); [rewrite Q|]; ring. Qed.
Global Opaque dZ iZ.

Definition oncurve (x y : F) : Prop := y * y - x * x = F1 + Fd * (x * x) * (y * y).

(** Bernstein and Lange: the denominators never vanish. *)
Lemma complete_aux x1 y1 x2 y2 e : oncurve x1 y1 -> oncurve x2 y2 ->
  e * e = F1 -> Fd * x1 * x2 * y1 * y2 = e -> False.
Proof.
  unfold oncurve. intros H1 H2 He E.
  assert (Ne : e <> F0). { intros ->. apply F1_neq_0. rewrite <- He. ring. }
  assert (X1 : x1 <> F0). { intros ->. apply Ne. rewrite <- E. ring. }
  assert (Y1 : y1 <> F0). { intros ->. apply Ne. rewrite <- E. ring. }
  assert (Y2 : y2 <> F0). { intros ->. apply Ne. rewrite <- E. ring. }
  pose proof Fi_square as I. pose proof Fi_neq_0 as I0.
  set (i := Fi) in *.
  assert (Q : forall s, s * s = F1 -> i * x2 + s * y2 <> F0 -> False).
  { intros s Hs N.
    apply (Fd_nonsquare ((i * x1 + s * e * y1) / (x1 * y1 * (i * x2 + s * y2)))).
    assert (C : (i * x1 + s * e * y1) * (i * x1 + s * e * y1) = Fd * (x1 * y1 * (i * x2 + s * y2)) * (x1 * y1 * (i * x2 + s * y2))).
    { transitivity ((i * i) * x1 * x1 + (s * s) * (e * e) * y1 * y1 + (F1 + F1) * i * s * e * x1 * y1); [ring|].
      rewrite I, Hs, He.
      transitivity (Fd * x1 * x1 * y1 * y1 * ((i * i) * x2 * x2 + (s * s) * y2 * y2) + (F1 + F1) * i * s * (Fd * x1 * x2 * y1 * y2) * x1 * y1); [|ring].
      rewrite E, I, Hs.
      transitivity (Fd * x1 * x1 * y1 * y1 * (y2 * y2 - x2 * x2) + (F1 + F1) * i * s * e * x1 * y1); [|ring].
      rewrite H2.
      transitivity (Fd * (x1 * x1) * (y1 * y1) + (Fd * x1 * x2 * y1 * y2) * (Fd * x1 * x2 * y1 * y2) + (F1 + F1) * i * s * e * x1 * y1); [|ring].
      rewrite E, He.
      transitivity ((y1 * y1 - x1 * x1) + (F1 + F1) * i * s * e * x1 * y1); [ring|]. rewrite H1. ring. }
    set (D := x1 * y1 * (i * x2 + s * y2)) in *.
    assert (DN : D <> F0) by (unfold D; repeat apply Fmul_nonzero; assumption).
    set (U := i * x1 + s * e * y1) in *.
    transitivity (U * U / (D * D)); [field; exact DN|]. rewrite C. field. exact DN. }
  destruct (F_dec (i * x2 + F1 * y2) F0) as [A|A]; [|apply (Q F1); [ring|exact A]].
  destruct (F_dec (i * x2 + (- F1) * y2) F0) as [B|B]; [|apply (Q (- F1)); [ring|exact B]].
  apply Y2.
  assert (K : (F1 + F1) * y2 = F0).
  { transitivity ((i * x2 + F1 * y2) - (i * x2 + (- F1) * y2)); [ring|]. rewrite A, B. ring. }
  apply Fmul_zero in K. destruct K as [K|K]; [destruct (F2_neq_0 K)|exact K].
Qed.
Lemma den_plus x1 y1 x2 y2 : oncurve x1 y1 -> oncurve x2 y2 -> F1 + Fd * x1 * x2 * y1 * y2 <> F0.
Proof.
  intros H1 H2 E. apply (complete_aux x1 y1 x2 y2 (- F1) H1 H2); [ring|].
  replace (Fd * x1 * x2 * y1 * y2) with ((F1 + Fd * x1 * x2 * y1 * y2) - F1) by ring. rewrite E. ring.
Qed.
Lemma den_minus x1 y1 x2 y2 : oncurve x1 y1 -> oncurve x2 y2 -> F1 - Fd * x1 * x2 * y1 * y2 <> F0.
Proof.
  intros H1 H2 E. apply (complete_aux x1 y1 x2 y2 F1 H1 H2); [ring|].
  replace (Fd * x1 * x2 * y1 * y2) with (F1 - (F1 - Fd * x1 * x2 * y1 * y2)) by ring. rewrite E. ring.
Qed.

Definition addx (x1 y1 x2 y2 : F) : F := (x1 * y2 + y1 * x2) / (F1 + Fd * x1 * x2 * y1 * y2).
Definition addy (x1 y1 x2 y2 : F) : F := (y1 * y2 + x1 * x2) / (F1 - Fd * x1 * x2 * y1 * y2).

Lemma oncurve_mono x y : oncurve x y -> x * x * (y * y) = Finv Fd * (y * y - x * x - F1).
Proof.
  unfold oncurve. intro H. rewrite H. field. exact Fd_neq_0.
Qed.
Lemma Fd_inv : Fd * Finv Fd = F1.
Proof. field. exact Fd_neq_0. Qed.

Lemma Fdiv_ne a b c d : b <> F0 -> d <> F0 -> a * d = c * b -> a / b = c / d.
Proof.
  intros B D E. transitivity ((a * d) / (b * d)); [field; auto|]. rewrite E. field. auto.
Qed.
(** The addition law without divisions *)
Lemma oncurve_frac n1 d1 n2 d2 : d1 <> F0 -> d2 <> F0 ->
  n2 * n2 * (d1 * d1) - n1 * n1 * (d2 * d2) = d1 * d1 * (d2 * d2) + Fd * (n1 * n1) * (n2 * n2) -> oncurve (n1 / d1) (n2 / d2).
Proof.
  intros D1 D2 E. unfold oncurve.
  transitivity ((n2 * n2 * (d1 * d1) - n1 * n1 * (d2 * d2)) / (d1 * d1 * (d2 * d2))); [field; auto|].
  rewrite E. field. auto.
Qed.
Lemma add_oncurve_poly d e x1 y1 x2 y2 :
  x1 * x1 * y1 * y1 = e * (y1 * y1 - x1 * x1 - F1) -> x2 * x2 * y2 * y2 = e * (y2 * y2 - x2 * x2 - F1) -> d * e = F1 ->
  let n1 := x1 * y2 + y1 * x2 in let n2 := y1 * y2 + x1 * x2 in let t := d * x1 * x2 * y1 * y2 in
  n2 * n2 * ((F1 + t) * (F1 + t)) - n1 * n1 * ((F1 - t) * (F1 - t)) = (F1 + t) * (F1 + t) * ((F1 - t) * (F1 - t)) + d * (n1 * n1) * (n2 * n2).
Proof.
  cbv zeta. intros M1 M2 DI. ring [M1 M2 DI].
Qed.
Lemma add_oncurve x1 y1 x2 y2 : oncurve x1 y1 -> oncurve x2 y2 -> oncurve (addx x1 y1 x2 y2) (addy x1 y1 x2 y2).
Proof.
  intros H1 H2. apply oncurve_frac; [now apply den_plus|now apply den_minus|].
  apply (add_oncurve_poly Fd (Finv Fd)); [rewrite <- oncurve_mono by assumption; ring|rewrite <- oncurve_mono by assumption; ring|exact Fd_inv].
Qed.
(** Adding a fraction to a point *)
Lemma addx_frac n1 d1 n2 d2 x y : d1 <> F0 -> d2 <> F0 -> d1 * d2 + Fd * n1 * x * n2 * y <> F0 ->
  addx (n1 / d1) (n2 / d2) x y = (n1 * d2 * y + n2 * d1 * x) / (d1 * d2 + Fd * n1 * x * n2 * y).
Proof.
  intros D1 D2 D. unfold addx. apply Fdiv_ne; [|exact D|field; auto].
  intro E. apply D. transitivity (d1 * d2 * (F1 + Fd * (n1 / d1) * x * (n2 / d2) * y)); [field; auto|]. rewrite E. ring.
Qed.
Lemma addy_frac n1 d1 n2 d2 x y : d1 <> F0 -> d2 <> F0 -> d1 * d2 - Fd * n1 * x * n2 * y <> F0 ->
  addy (n1 / d1) (n2 / d2) x y = (n2 * d1 * y + n1 * d2 * x) / (d1 * d2 - Fd * n1 * x * n2 * y).
Proof.
  intros D1 D2 D. unfold addy. apply Fdiv_ne; [|exact D|field; auto].
  intro E. apply D. transitivity (d1 * d2 * (F1 - Fd * (n1 / d1) * x * (n2 / d2) * y)); [field; auto|]. rewrite E. ring.
Qed.
Lemma addx_comm x1 y1 x2 y2 : addx x1 y1 x2 y2 = addx x2 y2 x1 y1.
Proof. unfold addx. f_equal; ring. Qed.
Lemma addy_comm x1 y1 x2 y2 : addy x1 y1 x2 y2 = addy x2 y2 x1 y1.
Proof. unfold addy. f_equal; ring. Qed.

Lemma assoc_x_poly d e x1 y1 x2 y2 x3 y3 :
  x1 * x1 * y1 * y1 = e * (y1 * y1 - x1 * x1 - F1) -> x2 * x2 * y2 * y2 = e * (y2 * y2 - x2 * x2 - F1) ->
  x3 * x3 * y3 * y3 = e * (y3 * y3 - x3 * x3 - F1) -> d * e = F1 ->
  let n1 := x1 * y2 + y1 * x2 in let n2 := y1 * y2 + x1 * x2 in let t := d * x1 * x2 * y1 * y2 in
  let m1 := x3 * y2 + y3 * x2 in let m2 := y3 * y2 + x3 * x2 in let s := d * x3 * x2 * y3 * y2 in
  (n1 * (F1 - t) * y3 + n2 * (F1 + t) * x3) * ((F1 + s) * (F1 - s) + d * m1 * x1 * m2 * y1) =
  (m1 * (F1 - s) * y1 + m2 * (F1 + s) * x1) * ((F1 + t) * (F1 - t) + d * n1 * x3 * n2 * y3).
Proof. cbv zeta. intros M1 M2 M3 DI. ring [M1 M2 M3 DI]. Qed.
Lemma assoc_y_poly d e x1 y1 x2 y2 x3 y3 :
  x1 * x1 * y1 * y1 = e * (y1 * y1 - x1 * x1 - F1) -> x2 * x2 * y2 * y2 = e * (y2 * y2 - x2 * x2 - F1) ->
  x3 * x3 * y3 * y3 = e * (y3 * y3 - x3 * x3 - F1) -> d * e = F1 ->
  let n1 := x1 * y2 + y1 * x2 in let n2 := y1 * y2 + x1 * x2 in let t := d * x1 * x2 * y1 * y2 in
  let m1 := x3 * y2 + y3 * x2 in let m2 := y3 * y2 + x3 * x2 in let s := d * x3 * x2 * y3 * y2 in
  (n2 * (F1 + t) * y3 + n1 * (F1 - t) * x3) * ((F1 + s) * (F1 - s) - d * m1 * x1 * m2 * y1) =
  (m2 * (F1 + s) * y1 + m1 * (F1 - s) * x1) * ((F1 + t) * (F1 - t) - d * n1 * x3 * n2 * y3).
Proof. cbv zeta. intros M1 M2 M3 DI. ring [M1 M2 M3 DI]. Qed.

(** ** Points *)
Definition oncurveb (x y : F) : bool := Feqb (y * y - x * x) (F1 + Fd * (x * x) * (y * y)).
Lemma oncurveb_ok x y : oncurveb x y = true <-> oncurve x y.
Proof. apply Feqb_spec. Qed.
Record point := mkPoint { px : F; py : F; p_on : oncurveb px py = true }.
Lemma point_ext P Q : px P = px Q -> py P = py Q -> P = Q.
Proof. destruct P as [a b H], Q as [c e K]. cbn [px py]. intros -> ->. f_equal. apply UIP_dec, bool_dec. Qed.
Definition onP (P : point) : oncurve (px P) (py P) := proj1 (oncurveb_ok _ _) (p_on P).
Definition mkP (x y : F) (H : oncurve x y) : point := mkPoint x y (proj2 (oncurveb_ok x y) H).
Lemma O_on : oncurve F0 F1. Proof. unfold oncurve. ring. Qed.
Lemma opp_on x y : oncurve x y -> oncurve (- x) y.
Proof. unfold oncurve. intro H. transitivity (y * y - x * x); [ring|]. rewrite H. ring. Qed.

(** The neutral element, negation and addition *)
Definition pO : point := mkP F0 F1 O_on.
Definition popp (P : point) : point := mkP (- px P) (py P) (opp_on _ _ (onP P)).
Definition padd (P Q : point) : point :=
  mkP (addx (px P) (py P) (px Q) (py Q)) (addy (px P) (py P) (px Q) (py Q)) (add_oncurve _ _ _ _ (onP P) (onP Q)).

Lemma padd_comm P Q : padd P Q = padd Q P.
Proof. apply point_ext; cbn [px py padd mkP]; [apply addx_comm|apply addy_comm]. Qed.
Lemma padd_O_l P : padd pO P = P.
Proof.
  apply point_ext; cbn [px py padd mkP pO]; unfold addx, addy.
  - transitivity (px P / F1); [f_equal; ring|field; exact F1_neq_0].
  - transitivity (py P / F1); [f_equal; ring|field; exact F1_neq_0].
Qed.
Lemma padd_O_r P : padd P pO = P.
Proof. rewrite padd_comm. apply padd_O_l. Qed.
Lemma padd_opp_r P : padd P (popp P) = pO.
Proof.
  pose proof (onP P) as H. pose proof (opp_on _ _ H) as H'. pose proof (den_plus _ _ _ _ H H') as D1. pose proof (den_minus _ _ _ _ H H') as D2.
  apply point_ext; cbn [px py padd mkP pO popp]; unfold addx, addy.
  - transitivity (F0 / (F1 + Fd * px P * - px P * py P * py P)); [f_equal; ring|]. set (D := F1 + _) in *. field. exact D1.
  - replace (py P * py P + px P * - px P) with (F1 - Fd * px P * - px P * py P * py P).
    + set (D := F1 - _) in *. field. exact D2.
    + unfold oncurve in H. transitivity (py P * py P - px P * px P); [rewrite H|]; ring.
Qed.
Lemma assoc_coords x1 y1 x2 y2 x3 y3 : oncurve x1 y1 -> oncurve x2 y2 -> oncurve x3 y3 ->
  addx (addx x1 y1 x2 y2) (addy x1 y1 x2 y2) x3 y3 = addx (addx x3 y3 x2 y2) (addy x3 y3 x2 y2) x1 y1 /\
  addy (addx x1 y1 x2 y2) (addy x1 y1 x2 y2) x3 y3 = addy (addx x3 y3 x2 y2) (addy x3 y3 x2 y2) x1 y1.
Proof.
  intros H1 H2 H3.
  pose proof (den_plus _ _ _ _ H1 H2) as A1. pose proof (den_minus _ _ _ _ H1 H2) as A2.
  pose proof (den_plus _ _ _ _ H3 H2) as B1. pose proof (den_minus _ _ _ _ H3 H2) as B2.
  pose proof (add_oncurve _ _ _ _ H1 H2) as H12. pose proof (add_oncurve _ _ _ _ H3 H2) as H32.
  pose proof (den_plus _ _ _ _ H12 H3) as C1. pose proof (den_minus _ _ _ _ H12 H3) as C2.
  pose proof (den_plus _ _ _ _ H32 H1) as E1. pose proof (den_minus _ _ _ _ H32 H1) as E2.
  pose proof (oncurve_mono _ _ H1) as M1. pose proof (oncurve_mono _ _ H2) as M2. pose proof (oncurve_mono _ _ H3) as M3.
  assert (K1 : x1 * x1 * y1 * y1 = Finv Fd * (y1 * y1 - x1 * x1 - F1)) by (rewrite <- M1; ring).
  assert (K2 : x2 * x2 * y2 * y2 = Finv Fd * (y2 * y2 - x2 * x2 - F1)) by (rewrite <- M2; ring).
  assert (K3 : x3 * x3 * y3 * y3 = Finv Fd * (y3 * y3 - x3 * x3 - F1)) by (rewrite <- M3; ring).
  pose proof (assoc_x_poly Fd (Finv Fd) _ _ _ _ _ _ K1 K2 K3 Fd_inv) as PX.
  pose proof (assoc_y_poly Fd (Finv Fd) _ _ _ _ _ _ K1 K2 K3 Fd_inv) as PY.
  clear H1 H2 H3 H12 H32 M1 M2 M3 K1 K2 K3. cbv zeta in PX, PY.
  change (addx x1 y1 x2 y2) with ((x1 * y2 + y1 * x2) / (F1 + Fd * x1 * x2 * y1 * y2)) in *.
  change (addy x1 y1 x2 y2) with ((y1 * y2 + x1 * x2) / (F1 - Fd * x1 * x2 * y1 * y2)) in *.
  change (addx x3 y3 x2 y2) with ((x3 * y2 + y3 * x2) / (F1 + Fd * x3 * x2 * y3 * y2)) in *.
  change (addy x3 y3 x2 y2) with ((y3 * y2 + x3 * x2) / (F1 - Fd * x3 * x2 * y3 * y2)) in *.
  set (n1 := x1 * y2 + y1 * x2) in *. set (n2 := y1 * y2 + x1 * x2) in *. set (t := Fd * x1 * x2 * y1 * y2) in *.
  set (m1 := x3 * y2 + y3 * x2) in *. set (m2 := y3 * y2 + x3 * x2) in *. set (s := Fd * x3 * x2 * y3 * y2) in *.
  clearbody n1 n2 m1 m2 t s.
  set (a := F1 + t) in *. set (b := F1 - t) in *. set (u := F1 + s) in *. set (v := F1 - s) in *. clearbody a b u v.
  assert (Q : forall d1 d2 n1 n2 x y c, d1 <> F0 -> d2 <> F0 -> F1 + c * Fd * (n1 / d1) * x * (n2 / d2) * y <> F0 -> d1 * d2 + c * Fd * n1 * x * n2 * y <> F0).
  { clear. intros d1 d2 n1 n2 x y c D1 D2 H E. apply H.
    transitivity ((d1 * d2 + c * Fd * n1 * x * n2 * y) / (d1 * d2)); [field; auto|]. rewrite E. field. auto. }
  assert (C1' : a * b + Fd * n1 * x3 * n2 * y3 <> F0).
  { intro E. apply (Q a b n1 n2 x3 y3 F1 A1 A2); [intro E'; apply C1; rewrite <- E'; ring|rewrite <- E; ring]. }
  assert (C2' : a * b - Fd * n1 * x3 * n2 * y3 <> F0).
  { intro E. apply (Q a b n1 n2 x3 y3 (- F1) A1 A2); [intro E'; apply C2; rewrite <- E'; ring|rewrite <- E; ring]. }
  assert (E1' : u * v + Fd * m1 * x1 * m2 * y1 <> F0).
  { intro E. apply (Q u v m1 m2 x1 y1 F1 B1 B2); [intro E'; apply E1; rewrite <- E'; ring|rewrite <- E; ring]. }
  assert (E2' : u * v - Fd * m1 * x1 * m2 * y1 <> F0).
  { intro E. apply (Q u v m1 m2 x1 y1 (- F1) B1 B2); [intro E'; apply E2; rewrite <- E'; ring|rewrite <- E; ring]. }
  rewrite !addx_frac, !addy_frac by assumption. split; apply Fdiv_ne; assumption.
Qed.
Lemma padd_assoc P Q R : padd P (padd Q R) = padd (padd P Q) R.
Proof.
  symmetry. rewrite (padd_comm P (padd Q R)), (padd_comm Q R).
  destruct (assoc_coords _ _ _ _ _ _ (onP P) (onP Q) (onP R)) as [X Y].
  apply point_ext; cbn [px py padd mkP]; assumption.
Qed.
Lemma padd_opp_l P : padd (popp P) P = pO.
Proof. rewrite padd_comm. apply padd_opp_r. Qed.
Lemma padd_cancel_l P Q R : padd P Q = padd P R -> Q = R.
Proof.
  intro H. apply (f_equal (padd (popp P))) in H. rewrite !padd_assoc, padd_opp_l, !padd_O_l in H. exact H.
Qed.
Lemma popp_unique P Q : padd P Q = pO -> Q = popp P.
Proof. intro H. apply (padd_cancel_l P). now rewrite padd_opp_r. Qed.
Lemma popp_O : popp pO = pO.
Proof. symmetry. apply popp_unique. apply padd_O_l. Qed.
Lemma popp_popp P : popp (popp P) = P.
Proof. symmetry. apply popp_unique. apply padd_opp_l. Qed.
Lemma popp_add P Q : popp (padd P Q) = padd (popp P) (popp Q).
Proof.
  symmetry. apply popp_unique. rewrite padd_assoc, <- (padd_assoc P Q), (padd_comm Q), padd_assoc, padd_opp_r, padd_O_l. apply padd_opp_r.
Qed.

(** ** Multiples *)
Definition smul (n : Z) (P : point) : point :=
  match n with Z0 => pO | Zpos k => Pos.iter_op padd k P | Zneg k => popp (Pos.iter_op padd k P) end.
Lemma smul_0 P : smul 0 P = pO. Proof. reflexivity. Qed.
Lemma smul_1 P : smul 1 P = P. Proof. reflexivity. Qed.
Lemma iter_op_succ k P : Pos.iter_op padd (Pos.succ k) P = padd P (Pos.iter_op padd k P).
Proof. apply Pos.iter_op_succ. intros. apply padd_assoc. Qed.
Lemma smul_succ n P : smul (Z.succ n) P = padd P (smul n P).
Proof.
  destruct n as [|k|k].
  - cbn [smul]. now rewrite padd_O_r.
  - rewrite <- Pos2Z.inj_succ. apply iter_op_succ.
  - destruct (Pos.eq_dec k 1) as [->|N].
    + cbn [smul Z.succ Z.add Z.pos_sub Pos.iter_op]. change (smul (Z.succ (-1)) P) with pO. now rewrite padd_opp_r.
    + rewrite <- (Pos.succ_pred k N). set (j := Pos.pred k). cbn [smul].
      replace (Z.succ (Z.neg (Pos.succ j))) with (Z.neg j) by lia. cbn [smul].
      rewrite iter_op_succ, popp_add, padd_assoc, padd_opp_r. now rewrite padd_O_l.
Qed.
Lemma smul_add m n P : smul (m + n) P = padd (smul m P) (smul n P).
Proof.
  revert m. apply Z.bi_induction; [now intros ? ? ->| |].
  - rewrite Z.add_0_l, smul_0. now rewrite padd_O_l.
  - intro m. rewrite Z.add_succ_l, !smul_succ, <- padd_assoc. split.
    + now intros ->.
    + intro H. now apply padd_cancel_l in H.
Qed.
Lemma smul_opp n P : smul (- n) P = popp (smul n P).
Proof. apply popp_unique. rewrite <- smul_add. now rewrite Z.add_opp_diag_r. Qed.
Lemma smul_sub m n P : smul (m - n) P = padd (smul m P) (popp (smul n P)).
Proof. now rewrite <- Z.add_opp_r, smul_add, smul_opp. Qed.
Lemma padd_swap A B C D : padd (padd A B) (padd C D) = padd (padd A C) (padd B D).
Proof. rewrite <- !padd_assoc. f_equal. rewrite !padd_assoc. f_equal. apply padd_comm. Qed.
Lemma smul_padd n P Q : smul n (padd P Q) = padd (smul n P) (smul n Q).
Proof.
  revert n. apply Z.bi_induction; [now intros ? ? ->| |].
  - rewrite !smul_0. now rewrite padd_O_l.
  - intro n. rewrite !smul_succ, (padd_swap P). split.
    + now intros ->.
    + intro H. now apply padd_cancel_l in H.
Qed.
Lemma smul_O n : smul n pO = pO.
Proof. apply (padd_cancel_l (smul n pO)). now rewrite <- smul_padd, padd_O_l, padd_O_r. Qed.
Lemma smul_popp n P : smul n (popp P) = popp (smul n P).
Proof. apply popp_unique. rewrite <- smul_padd, padd_opp_r. apply smul_O. Qed.
Lemma smul_mul m n P : smul (m * n) P = smul m (smul n P).
Proof.
  revert m. apply Z.bi_induction; [now intros ? ? ->|reflexivity|].
  intro m. rewrite Z.mul_succ_l, Z.add_comm, smul_add, smul_succ. split.
  - now intros ->.
  - intro H. now apply padd_cancel_l in H.
Qed.
Lemma smul_2 P : smul 2 P = padd P P.
Proof. reflexivity. Qed.
Lemma smul_mod n m P : smul m P = pO -> smul (n mod m) P = smul n P.
Proof.
  intro H. destruct (Z.eq_dec m 0) as [->|M]; [now rewrite Zmod_0_r|].
  rewrite (Z.div_mod n m M) at 2. rewrite smul_add, Z.mul_comm, smul_mul, H, smul_O. now rewrite padd_O_l.
Qed.
Lemma smul_gcd m n P : smul m P = pO -> smul n P = pO -> smul (Z.gcd m n) P = pO.
Proof.
  intros M N. destruct (Z.gcd_bezout m n _ eq_refl) as (u & v & <-).
  rewrite smul_add, !smul_mul, M, N, !smul_O. apply padd_O_l.
Qed.
Global Opaque smul.
