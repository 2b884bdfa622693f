(** Proofs about the key conversions and Elligator representatives. *)
From Coq Require Import List NArith ZArith Lia Bool Arith Znumtheory Field.
From Verif Require Import Base Extra25519 GoInt Field FieldSpec FieldFacts FieldBytes FieldPow EdConst Group NumTheory Fp EdGroup EdOrder Scalar GroupFacts EncFacts MulFacts BaseFacts SmulFacts PointFacts EdCyclic VRF VRFSpec VRFFacts Elligator.
Import ListNotations.
Local Open Scope F_scope.

(** ** Constants *)
Definition Fs : F := Z2F 19107441620975295877489206599677705955594462908448195928492385465416367517599.
Definition Fm : F := Z2F 51042569399160536130206135233146329284152202253034631822681833788666877215207.
Lemma fr_half : fr 101 sqrtMinusHalf Fs.
Proof. apply fr_const; vm_compute; reflexivity. Qed.
Lemma fr_minusA : fr 101 sqrtMinusA Fm.
Proof. apply fr_const; vm_compute; reflexivity. Qed.
Lemma fr_A2 : fr 2 c_A FA.
Proof. apply fr_const; vm_compute; reflexivity. Qed.
(** 2 s^2 = -i, not -1 *)
Lemma Fs_square : (F1 + F1) * (Fs * Fs) = - Fi.
Proof. unfold Fs, Fi. rewrite <- Z2F_1, <- Z2F_add, <- !Z2F_mul, <- Z2F_opp. apply Z2F_eq. vm_compute. reflexivity. Qed.
(** m^2 = -(A + 2), not -A *)
Lemma Fm_square : Fm * Fm = - (FA + F1 + F1).
Proof. unfold Fm, FA. rewrite <- Z2F_1, <- !Z2F_add, <- !Z2F_mul, <- Z2F_opp. apply Z2F_eq. vm_compute. reflexivity. Qed.
Lemma half_bytes : length halfQMinus1Bytes = 32%nat /\ le_value halfQMinus1Bytes = ((p25519 - 1) / 2)%Z.
Proof. vm_compute. now split. Qed.

(** ** The algebra *)
Section Algebra.
  Variables u b : F.
  Definition qq : F := Fpow (w7 u b) ((p25519 - 5) / 8).
  Definition oo : F := Fpow (w7 u b) ((p25519 - 1) / 4).
  Lemma oo_qq : w7 u b * (qq * qq) = oo.
  Proof.
    destruct quarter as (Q & A & B & C). unfold qq, oo. rewrite <- Q, <- !Fpow_plus, Fpow_1 by lia. ring.
  Qed.
  Lemma oo_square : oo * oo = Fchi (w7 u b).
  Proof. destruct quarter as (Q & A & B & C). unfold oo, Fchi. rewrite Fpow_plus, C by lia. reflexivity. Qed.
  Lemma chi_w7 : b <> F0 -> Fchi (w7 u b) = Fchi (u * b).
  Proof.
    intro N. replace (w7 u b) with ((u * b) * ((b * b * b) * (b * b * b))) by (unfold w7; ring).
    rewrite Fchi_mul, Fchi_square; [ring|]. repeat apply Fmul_nonzero; exact N.
  Qed.
  Hypothesis U : u <> F0.
  Hypothesis B : b <> F0.
  Hypothesis X : Fchi (u * b) = - F1.
  Lemma oo_i : oo = Fi \/ oo = - Fi.
  Proof.
    pose proof oo_square as S. rewrite chi_w7, X in S by exact B.
    assert (K : (oo - Fi) * (oo + Fi) = F0). { transitivity (oo * oo - Fi * Fi); [ring|]. rewrite S, Fi_square. ring. }
    apply Fmul_zero in K. destruct K as [K|K].
    - left. now apply Fsub_zero.
    - right. apply Fsub_zero. rewrite <- K. ring.
  Qed.
  (** the two candidates, before and after the correction *)
  Definition rho1 : F := qq * u * (b * b * b) * Fs.
  Lemma rho1_eq : (F1 + F1) * (rho1 * rho1) * b = - Fi * oo * u.
  Proof.
    transitivity ((F1 + F1) * (Fs * Fs) * (w7 u b * (qq * qq)) * u); [unfold rho1, w7; ring|]. rewrite Fs_square, oo_qq. ring.
  Qed.
  Definition corrected (rho t : F) : F := if F_dec t F0 then rho else rho * Fi.
  Lemma Fi_nonzero : Fi <> F0.
  Proof. intro H. pose proof Fi_square as S. rewrite H in S. apply F1_neq_0. transitivity (- - F1); [ring|]. rewrite <- S. ring. Qed.
  Lemma twice_nonzero a : a <> F0 -> a + a <> F0.
  Proof. intros N H. apply (Fmul_nonzero _ _ F2_neq_0 N). rewrite <- H. ring. Qed.
  Lemma rho1_ok : let r := corrected rho1 ((F1 + F1) * (rho1 * rho1) * b + u) in (F1 + F1) * (r * r) * b = - u.
  Proof.
    cbv zeta. unfold corrected. destruct (F_dec _ _) as [E|E].
    - transitivity ((F1 + F1) * (rho1 * rho1) * b + u - u); [ring|]. rewrite E. ring.
    - transitivity ((Fi * Fi) * ((F1 + F1) * (rho1 * rho1) * b)); [ring|]. rewrite rho1_eq in E |- *.
      destruct oo_i as [O|O]; rewrite O in *.
      + rewrite Fi_square. transitivity ((Fi * Fi) * u); [ring|]. rewrite Fi_square. ring.
      + destruct E. transitivity ((Fi * Fi) * u + u); [ring|]. rewrite Fi_square. ring.
  Qed.
  Definition rho0 : F := qq * qq * qq * (qq * qq * qq) * qq * (u * u * u) * (b * b * b * b * b * b * b * b * (b * b * b * b * b * b * b * b) * (b * b * b * b * b * b * b * b) * b) * Fs.
  Lemma rho0_eq : (F1 + F1) * (rho0 * rho0) * u = Fi * oo * b.
  Proof.
    assert (O : oo * oo = - F1) by (rewrite oo_square, chi_w7 by exact B; exact X).
    transitivity ((F1 + F1) * (Fs * Fs) * ((w7 u b * (qq * qq)) * (w7 u b * (qq * qq)) * (w7 u b * (qq * qq)) * (w7 u b * (qq * qq)) * (w7 u b * (qq * qq)) * (w7 u b * (qq * qq)) * (w7 u b * (qq * qq))) * b).
    - unfold rho0, w7. ring.
    - rewrite Fs_square, oo_qq. transitivity (- Fi * ((oo * oo) * (oo * oo) * (oo * oo)) * oo * b); [ring|]. rewrite O. ring.
  Qed.
  Lemma rho0_ok : let r := corrected rho0 ((F1 + F1) * (rho0 * rho0) * u + b) in (F1 + F1) * (r * r) * u = - b.
  Proof.
    cbv zeta. unfold corrected. destruct (F_dec _ _) as [E|E].
    - transitivity ((F1 + F1) * (rho0 * rho0) * u + b - b); [ring|]. rewrite E. ring.
    - transitivity ((Fi * Fi) * ((F1 + F1) * (rho0 * rho0) * u)); [ring|]. rewrite rho0_eq in E |- *.
      destruct oo_i as [O|O]; rewrite O in *.
      + destruct E. transitivity ((Fi * Fi) * b + b); [ring|]. rewrite Fi_square. ring.
      + rewrite Fi_square. transitivity ((Fi * Fi) * b); [ring|]. rewrite Fi_square. ring.
  Qed.
End Algebra.

(** ** Representatives *)
Lemma mont_factor u : mont u = u * (u * u + FA * u + F1). Proof. unfold mont. ring. Qed.
Lemma Fchi_sq a : a <> F0 -> Fchi a * Fchi a = F1.
Proof. intro N. rewrite <- Fchi_mul. now apply Fchi_square. Qed.
(** 2 r^2 u = -(u + A): the first branch of the map *)
Lemma ell_first u r : u <> F0 -> Fchi (mont u) <> - F1 -> (F1 + F1) * (r * r) * u = - (u + FA) -> ell_u r = u.
Proof.
  intros U M H. assert (V : ell_v r = u).
  { unfold ell_v. pose proof (ell_den r) as D.
    assert (K : u * (F1 + (F1 + F1) * (r * r)) = - FA). { transitivity (u + (F1 + F1) * (r * r) * u); [ring|]. rewrite H. ring. }
    set (k := F1 + (F1 + F1) * (r * r)) in *. clearbody k. apply (Fmul_cancel_r _ _ k D). rewrite K. field. exact D. }
  unfold ell_u. rewrite V. destruct (F_dec _ _) as [E|E]; [contradiction|reflexivity].
Qed.
(** 2 r^2 (u + A) = -u: the second branch *)
Lemma ell_second u r : u <> F0 -> u + FA <> F0 -> Fchi (mont u) <> - F1 -> (F1 + F1) * (r * r) * (u + FA) = - u -> ell_u r = u.
Proof.
  intros U B M H. assert (V : ell_v r = - (u + FA)).
  { unfold ell_v. pose proof (ell_den r) as D.
    assert (K : (u + FA) * (F1 + (F1 + F1) * (r * r)) = FA). { transitivity ((u + FA) + (F1 + F1) * (r * r) * (u + FA)); [ring|]. rewrite H. ring. }
    set (k := F1 + (F1 + F1) * (r * r)) in *. clearbody k. apply (Fmul_cancel_r _ _ k D). transitivity (- ((u + FA) * k)); [|ring]. rewrite K. field. exact D. }
  unfold ell_u. rewrite V. destruct (F_dec _ _) as [E|E]; [ring|]. exfalso. apply E.
  assert (Q : mont (- (u + FA)) * (u * u) = (F1 + F1) * (r * r) * ((u + FA) * (u + FA)) * mont u).
  { rewrite (mont_factor u). transitivity (- (u + FA) * (u * u + FA * u + F1) * (u * u)); [unfold mont; ring|].
    transitivity ((F1 + F1) * (r * r) * (u + FA) * (u + FA) * (u * (u * u + FA * u + F1))); [rewrite H; ring|ring]. }
  apply (f_equal Fchi) in Q. rewrite !Fchi_mul, (Fchi_sq u), (Fchi_sq (u + FA)), (Fchi_sq r), Fchi_2 in Q; [| |exact B|exact U].
  2: { intros ->. apply U. transitivity (- - u); [ring|]. rewrite <- H. ring. }
  assert (Mn : mont u <> F0) by (rewrite mont_factor; apply Fmul_nonzero; [exact U|apply quad_nonzero]).
  destruct (Fchi_values _ Mn) as [K|K]; [|contradiction]. rewrite K in Q. transitivity (Fchi (mont (- (u + FA))) * F1); [ring|]. rewrite Q. ring.
Qed.
(** No other points have representatives. *)
Lemma ell_image r : Fchi (ell_u r * (ell_u r + FA)) <> F1.
Proof.
  pose proof (ell_den r) as D. set (k := F1 + (F1 + F1) * (r * r)) in *.
  assert (V : ell_v r * k = - FA) by (unfold ell_v; fold k; clearbody k; field; exact D).
  assert (K : ell_v r * (ell_v r + FA) = - (F1 + F1) * (r * r) * (ell_v r * ell_v r)).
  { transitivity (ell_v r * (ell_v r - ell_v r * k)); [rewrite V; ring|]. unfold k. ring. }
  assert (E : ell_u r * (ell_u r + FA) = ell_v r * (ell_v r + FA)) by (unfold ell_u; destruct (F_dec _ _); ring).
  rewrite E, K. destruct (F_dec r F0) as [->|N].
  - replace (- (F1 + F1) * (F0 * F0) * (ell_v F0 * ell_v F0)) with F0 by ring. rewrite Fchi_0. intro H. apply F1_neq_0. symmetry. exact H.
  - destruct (F_dec (ell_v r) F0) as [Z|Z].
    + rewrite Z. replace (- (F1 + F1) * (r * r) * (F0 * F0)) with F0 by ring. rewrite Fchi_0. intro H. apply F1_neq_0. symmetry. exact H.
    + replace (- (F1 + F1) * (r * r) * (ell_v r * ell_v r)) with ((- F1) * (F1 + F1) * (r * r) * (ell_v r * ell_v r)) by ring.
      rewrite !Fchi_mul, (Fchi_sq r), (Fchi_sq (ell_v r)), Fchi_opp1, Fchi_2 by assumption. intro H. apply Fopp1_neq_1. transitivity (F1 * - F1 * F1 * F1); [ring|exact H].
Qed.

(** ** From the Edwards curve to Montgomery's *)
Definition mu (P : point) : F := (F1 + py P) / (F1 - py P).
Definition mv (P : point) : F := Fm * mu P / px P.
Lemma py_one P : py P = F1 -> P = pO.
Proof.
  intro H. pose proof (onP P) as O. rewrite H in O. pose proof (onP pO) as O'. cbn [px py pO mkP] in O'.
  apply point_ext; cbn [px py pO mkP]; [|exact H]. destruct (same_y _ _ _ O' O) as [E|E]; rewrite E; ring.
Qed.
Lemma gcd_2_L : Z.gcd 2 L25519 = 1%Z. Proof. vm_compute. reflexivity. Qed.
Lemma sub_xy P : subgroup P -> P <> pO -> px P <> F0 /\ F1 - py P <> F0.
Proof.
  intros S N. split.
  - intro X. pose proof (onP P) as O. unfold oncurve in O. rewrite X in O.
    assert (Y : py P * py P = F1). { transitivity (py P * py P - F0 * F0); [ring|]. rewrite O. ring. }
    apply N. rewrite <- (smul_1 P), <- gcd_2_L. apply smul_gcd; [|exact S]. rewrite smul_2.
    apply point_ext; cbn [px py padd pO mkP]; unfold addx, addy; rewrite X.
    + assert (E : F1 + Fd * F0 * F0 * py P * py P = F1) by ring. rewrite E. field. exact F1_neq_0.
    + assert (E : F1 - Fd * F0 * F0 * py P * py P = F1) by ring. rewrite E. transitivity (py P * py P); [field; exact F1_neq_0|exact Y].
  - intro H. apply N, py_one. symmetry. now apply Fsub_zero.
Qed.
Lemma d1_nonzero : F1 + Fd <> F0.
Proof. unfold Fd. rewrite <- Z2F_1, F0_def, <- Z2F_add, Z2F_eq. intro H. revert H. vm_compute. discriminate. Qed.
Lemma mu_mont P : px P <> F0 -> F1 - py P <> F0 -> mv P * mv P = mont (mu P) /\ mu P <> F0.
Proof.
  intros X Y. assert (E : py P <> - F1).
  { intro E. pose proof (onP P) as O. unfold oncurve in O. rewrite E in O. apply (Fmul_nonzero _ _ (Fmul_nonzero _ _ X X) d1_nonzero).
    transitivity (F1 + Fd * (px P * px P) * (- F1 * - F1) - (- F1 * - F1 - px P * px P)); [ring|]. rewrite O. ring. }
  assert (E1 : F1 + py P <> F0). { intro H. apply E. apply Fsub_zero. rewrite <- H. ring. }
  pose proof (onP P) as O. unfold oncurve in O. set (x := px P) in *. set (y := py P) in *.
  assert (M : (mu P * mu P + FA * mu P + F1) * (x * x) = - (FA + F1 + F1) * mu P).
  { unfold mu. fold y. set (k := F1 - y) in *. apply (Fmul_cancel_r _ _ (k * k)); [now apply Fmul_nonzero|].
    transitivity (((F1 + y) * (F1 + y) + FA * (F1 + y) * k + k * k) * (x * x)).
    { clearbody k. clear O. set (a := F1 + y) in *. clearbody a. field. exact Y. }
    transitivity (- (FA + F1 + F1) * (F1 + y) * k).
    2: { clearbody k. clear O. set (a := F1 + y) in *. clearbody a. field. exact Y. }
    unfold k. transitivity (((FA + F1 + F1) + Fd * (FA + F1 + F1) * (y * y)) * (x * x)); [rewrite Fd_A; ring|].
    transitivity ((FA + F1 + F1) * (F1 + Fd * (x * x) * (y * y) - F1 + x * x)); [ring|].
    rewrite <- O. ring. }
  split.
  - unfold mv. fold x. rewrite mont_factor.
    transitivity ((Fm * Fm) * (mu P * mu P) / (x * x)); [field; exact X|]. rewrite Fm_square.
    apply (Fmul_cancel_r _ _ (x * x)); [now apply Fmul_nonzero|].
    transitivity (mu P * (- (FA + F1 + F1) * mu P)); [field; exact X|]. rewrite <- M. ring.
  - unfold mu. fold y. rewrite Fdiv_def. apply Fmul_nonzero; [exact E1|]. intro H. apply F1_neq_0.
    transitivity ((F1 - y) * Finv (F1 - y)); [|rewrite H; ring]. transitivity (Finv (F1 - y) * (F1 - y)); [symmetry; now apply Finv_l|ring].
Qed.

(** ** The code *)
Lemma fr_q58 j f a : fr j f a -> (j <= 330)%Z -> fr 101 (q58 f) (Fpow a ((p25519 - 5) / 8)).
Proof.
  intros [Bf <-] J. apply (fr_pow j); [destruct quarter as (_ & A & _); exact A|]. apply q58_ok. exact (fe_bound_mono _ _ _ J Bf).
Qed.
Lemma powers_ok fu fb u b c b3 b8 : fr 101 fu u -> fr 103 fb b -> sbm_powers fu fb = (c, b3, b8) ->
  fr 101 c (qq u b) /\ fr 101 b3 (b * b * b) /\ fr 101 b8 (b * b * b * b * b * b * b * b).
Proof.
  intros U B. unfold sbm_powers. cbv zeta.
  pose proof (fr_square _ _ _ B ltac:(lia)) as H1. set (f1 := FeSquare fb) in *. clearbody f1.
  pose proof (fr_mul _ _ _ _ _ _ H1 B ltac:(lia) ltac:(lia)) as H2. set (f2 := FeMul f1 fb) in *. clearbody f2.
  pose proof (fr_square _ _ _ H2 ltac:(lia)) as H3. set (f3 := FeSquare f2) in *. clearbody f3.
  pose proof (fr_mul _ _ _ _ _ _ H3 B ltac:(lia) ltac:(lia)) as H4. set (f4 := FeMul f3 fb) in *. clearbody f4.
  pose proof (fr_mul _ _ _ _ _ _ H4 B ltac:(lia) ltac:(lia)) as H5. set (f5 := FeMul f4 fb) in *. clearbody f5.
  pose proof (fr_mul _ _ _ _ _ _ H4 U ltac:(lia) ltac:(lia)) as H6. set (f6 := FeMul f4 fu) in *. clearbody f6.
  pose proof (fr_q58 _ _ _ H6 ltac:(lia)) as H7. set (f7 := q58 f6) in *. clearbody f7.
  intro E. injection E as <- <- <-. split; [|split].
  - unfold qq. replace (w7 u b) with (b * b * b * (b * b * b) * b * u) by (unfold w7; ring). exact H7.
  - exact H2.
  - frm H5.
Qed.
Lemma chi_ok fu fb fc u b : fr 101 fu u -> fr 103 fb b -> fr 101 fc (qq u b) -> fr 101 (sbm_chi fu fb fc) (- (oo u b * oo u b)).
Proof.
  intros U B H. unfold sbm_chi. cbv zeta.
  pose proof (fr_square _ _ _ H ltac:(lia)) as H1. set (f1 := FeSquare fc) in *. clearbody f1.
  pose proof (fr_square _ _ _ H1 ltac:(lia)) as H2. set (f2 := FeSquare f1) in *. clearbody f2.
  pose proof (fr_square _ _ _ U ltac:(lia)) as H3. set (f3 := FeSquare fu) in *. clearbody f3.
  pose proof (fr_mul _ _ _ _ _ _ H2 H3 ltac:(lia) ltac:(lia)) as H4. set (f4 := FeMul f2 f3) in *. clearbody f4.
  pose proof (fr_square _ _ _ B ltac:(lia)) as H5. set (f5 := FeSquare fb) in *. clearbody f5.
  pose proof (fr_mul _ _ _ _ _ _ H5 B ltac:(lia) ltac:(lia)) as H6. set (f6 := FeMul f5 fb) in *. clearbody f6.
  pose proof (fr_square _ _ _ H6 ltac:(lia)) as H7. set (f7 := FeSquare f6) in *. clearbody f7.
  pose proof (fr_mul _ _ _ _ _ _ H7 B ltac:(lia) ltac:(lia)) as H8. set (f8 := FeMul f7 fb) in *. clearbody f8.
  pose proof (fr_square _ _ _ H8 ltac:(lia)) as H9. set (f9 := FeSquare f8) in *. clearbody f9.
  pose proof (fr_mul _ _ _ _ _ _ H4 H9 ltac:(lia) ltac:(lia)) as H10. set (f10 := FeMul f4 f9) in *. clearbody f10.
  pose proof (fr_neg _ _ _ H10 ltac:(lia)) as H11. rewrite <- oo_qq. eapply fr_eq; [|exact H11].
  set (q := qq u b). clearbody q. unfold w7. ring.
Qed.
Lemma correct_ok r rho t x k : fr 101 r rho -> fr k t x -> (k <= 330)%Z ->
  fr 101 (FeMul r (FeCMove FeOne c_SqrtM1 (fst (FeIsNonZero t)))) (corrected rho x).
Proof.
  intros R T K. pose proof (fr_isnonzero _ _ _ T K) as Z. set (z := fst (FeIsNonZero t)) in *. clearbody z.
  pose proof (fr_one 101 ltac:(lia)) as O. pose proof fr_SqrtM1 as I. unfold corrected.
  rewrite FeCMove_ok; [|eapply fr_length; exact O|eapply fr_length; exact I|rewrite Z; destruct (F_dec x F0); auto].
  rewrite Z. destruct (F_dec x F0); cbn [Z.eqb Pos.eqb].
  - pose proof (fr_mul _ _ _ _ _ _ R O ltac:(lia) ltac:(lia)) as M. frm M.
  - exact (fr_mul _ _ _ _ _ _ R I ltac:(lia) ltac:(lia)).
Qed.
Lemma r1_ok fu fb fc fb3 u b : fr 101 fu u -> fr 103 fb b -> fr 101 fc (qq u b) -> fr 101 fb3 (b * b * b) ->
  fr 101 (sbm_r1 fu fb fc fb3) (corrected (rho1 u b) ((F1 + F1) * (rho1 u b * rho1 u b) * b + u)).
Proof.
  intros U B H H3. unfold sbm_r1. cbv zeta.
  pose proof (fr_mul _ _ _ _ _ _ H U ltac:(lia) ltac:(lia)) as G1. set (g1 := FeMul fc fu) in *. clearbody g1.
  pose proof (fr_mul _ _ _ _ _ _ G1 H3 ltac:(lia) ltac:(lia)) as G2. set (g2 := FeMul g1 fb3) in *. clearbody g2.
  pose proof (fr_mul _ _ _ _ _ _ G2 fr_half ltac:(lia) ltac:(lia)) as G3. set (g3 := FeMul g2 sqrtMinusHalf) in *. clearbody g3.
  change (qq u b * u * (b * b * b) * Fs) with (rho1 u b) in G3. set (rho := rho1 u b) in *. clearbody rho.
  pose proof (fr_square _ _ _ G3 ltac:(lia)) as T1. set (t1 := FeSquare g3) in *. clearbody t1.
  pose proof (fr_mul _ _ _ _ _ _ T1 B ltac:(lia) ltac:(lia)) as T2. set (t2 := FeMul t1 fb) in *. clearbody t2.
  pose proof (fr_add _ _ _ _ _ _ T2 T2 ltac:(lia)) as T3. set (t3 := FeAdd t2 t2) in *. clearbody t3.
  pose proof (fr_add _ _ _ _ _ _ T3 U ltac:(lia)) as T4. set (t4 := FeAdd t3 fu) in *. clearbody t4.
  apply (correct_ok _ _ _ _ 303 G3); [|lia]. frm T4.
Qed.
Lemma r_ok fu fb fc fb8 u b : fr 101 fu u -> fr 103 fb b -> fr 101 fc (qq u b) -> fr 101 fb8 (b * b * b * b * b * b * b * b) ->
  fr 101 (sbm_r fu fb fc fb8) (corrected (rho0 u b) ((F1 + F1) * (rho0 u b * rho0 u b) * u + b)).
Proof.
  intros U B H H8. unfold sbm_r. cbv zeta.
  pose proof (fr_square _ _ _ H ltac:(lia)) as A1. set (a1 := FeSquare fc) in *. clearbody a1.
  pose proof (fr_mul _ _ _ _ _ _ A1 H ltac:(lia) ltac:(lia)) as A2. set (a2 := FeMul a1 fc) in *. clearbody a2.
  pose proof (fr_square _ _ _ A2 ltac:(lia)) as A3. set (a3 := FeSquare a2) in *. clearbody a3.
  pose proof (fr_mul _ _ _ _ _ _ A3 H ltac:(lia) ltac:(lia)) as A4. set (a4 := FeMul a3 fc) in *. clearbody a4.
  pose proof (fr_square _ _ _ U ltac:(lia)) as A5. set (a5 := FeSquare fu) in *. clearbody a5.
  pose proof (fr_mul _ _ _ _ _ _ A5 U ltac:(lia) ltac:(lia)) as A6. set (a6 := FeMul a5 fu) in *. clearbody a6.
  pose proof (fr_mul _ _ _ _ _ _ A4 A6 ltac:(lia) ltac:(lia)) as A7. set (a7 := FeMul a4 a6) in *. clearbody a7.
  pose proof (fr_square _ _ _ H8 ltac:(lia)) as A8. set (a8 := FeSquare fb8) in *. clearbody a8.
  pose proof (fr_mul _ _ _ _ _ _ A8 H8 ltac:(lia) ltac:(lia)) as A9. set (a9 := FeMul a8 fb8) in *. clearbody a9.
  pose proof (fr_mul _ _ _ _ _ _ A9 B ltac:(lia) ltac:(lia)) as A10. set (a10 := FeMul a9 fb) in *. clearbody a10.
  pose proof (fr_mul _ _ _ _ _ _ A7 A10 ltac:(lia) ltac:(lia)) as A11. set (a11 := FeMul a7 a10) in *. clearbody a11.
  pose proof (fr_mul _ _ _ _ _ _ A11 fr_half ltac:(lia) ltac:(lia)) as G3. set (g3 := FeMul a11 sqrtMinusHalf) in *. clearbody g3.
  clear A1 A2 A3 A4 A5 A6 A7 A8 A9 A10 A11.
  change (fr 101 g3 (rho0 u b)) in G3. set (rho := rho0 u b) in *. clearbody rho.
  pose proof (fr_square _ _ _ G3 ltac:(lia)) as T1. set (t1 := FeSquare g3) in *. clearbody t1.
  pose proof (fr_mul _ _ _ _ _ _ T1 U ltac:(lia) ltac:(lia)) as T2. set (t2 := FeMul t1 fu) in *. clearbody t2.
  pose proof (fr_add _ _ _ _ _ _ T2 T2 ltac:(lia)) as T3. set (t3 := FeAdd t2 t2) in *. clearbody t3.
  pose proof (fr_add _ _ _ _ _ _ T3 B ltac:(lia)) as T4. set (t4 := FeAdd t3 fb) in *. clearbody t4.
  apply (correct_ok _ _ _ _ 305 G3); [|lia]. frm T4.
Qed.
(** the test of the second byte *)
Lemma chi_byte a s : (a = F1 \/ a = - F1 \/ a = F0) -> length s = 32%nat -> le_value s = F2Z a ->
  Z.eqb (byteZ (nth 1 s x00)) 255 = if F_dec a (- F1) then true else false.
Proof.
  intros H L V. rewrite nth_byte, V. change (256 ^ Z.of_nat 1)%Z with 256%Z.
  destruct H as [->|[->| ->]].
  - destruct (F_dec F1 (- F1)) as [E|_]; [destruct Fopp1_neq_1; symmetry; exact E|]. rewrite F1_def, F2Z_Z2F. vm_compute. reflexivity.
  - destruct (F_dec (- F1) (- F1)) as [_|E]; [|destruct E; reflexivity]. rewrite <- Z2F_m1, F2Z_Z2F. vm_compute. reflexivity.
  - destruct (F_dec F0 (- F1)) as [E|_]. { exfalso. apply F1_neq_0. transitivity (- (- F1)); [ring|]. rewrite <- E. ring. }
    rewrite F0_def, F2Z_Z2F. vm_compute. reflexivity.
Qed.

(** What the representative is: by the sign of v. *)
Definition rep_of (P : point) : F :=
  let u := mu P in let b := u + FA in
  if Z.ltb (F2Z (mv P)) ((p25519 - 1) / 2) then corrected (rho1 u b) ((F1 + F1) * (rho1 u b * rho1 u b) * b + u)
  else corrected (rho0 u b) ((F1 + F1) * (rho0 u b * rho0 u b) * u + b).
Lemma sbm_from_ok A P : ext_ok A P -> px P <> F0 -> F1 - py P <> F0 ->
  (Fchi (mu P * (mu P + FA)) = F1 /\ sbm_from A = None) \/
  (Fchi (mu P * (mu P + FA)) <> F1 /\ exists pk rep, sbm_from A = Some (pk, rep) /\ length pk = 32%nat /\ length rep = 32%nat /\
     le_value pk = F2Z (mu P) /\ le_value rep = F2Z (rep_of P)).
Proof.
  intros (z & Z0 & X & Y & Z & _) PX PY. unfold sbm_from. cbv zeta.
  pose proof (fr_sub _ _ _ _ _ _ Z Y ltac:(lia)) as H1. set (f1 := FeSub (eZ A) (eY A)) in *. clearbody f1.
  pose proof (fr_mul _ _ _ _ _ _ H1 X ltac:(lia) ltac:(lia)) as H2. set (f2 := FeMul f1 (eX A)) in *. clearbody f2.
  pose proof (fr_invert _ _ _ H2 ltac:(lia)) as H3. set (inv1 := FeInvert f2) in *. clearbody inv1.
  pose proof (fr_mul _ _ _ _ _ _ H3 X ltac:(lia) ltac:(lia)) as H4. set (f4 := FeMul inv1 (eX A)) in *. clearbody f4.
  pose proof (fr_add _ _ _ _ _ _ Y Z ltac:(lia)) as H5. set (t0 := FeAdd (eY A) (eZ A)) in *. clearbody t0.
  pose proof (fr_mul _ _ _ _ _ _ H4 H5 ltac:(lia) ltac:(lia)) as HU. set (fu := FeMul f4 t0) in *. clearbody fu.
  pose proof (fr_mul _ _ _ _ _ _ H5 H3 ltac:(lia) ltac:(lia)) as H6. set (f6 := FeMul t0 inv1) in *. clearbody f6.
  pose proof (fr_mul _ _ _ _ _ _ H6 Z ltac:(lia) ltac:(lia)) as H7. set (f7 := FeMul f6 (eZ A)) in *. clearbody f7.
  pose proof (fr_mul _ _ _ _ _ _ H7 fr_minusA ltac:(lia) ltac:(lia)) as HV. set (fv := FeMul f7 sqrtMinusA) in *. clearbody fv.
  clear H1 H2 H3 H4 H5 H6 H7 X Y Z.
  set (x := px P) in *. set (y := py P) in *.
  assert (IN : Finv ((z - y * z) * (x * z)) * ((z - y * z) * (x * z)) = F1).
  { apply Finv_l. replace (z - y * z) with ((F1 - y) * z) by ring. repeat apply Fmul_nonzero; assumption. }
  assert (EU : Finv ((z - y * z) * (x * z)) * (x * z) * (y * z + z) = mu P).
  { unfold mu. fold y. set (i := Finv ((z - y * z) * (x * z))) in *. clearbody i. set (k := F1 - y) in *.
    apply (Fmul_cancel_r _ _ k PY). transitivity (F1 + y); [|field; exact PY].
    transitivity ((i * ((z - y * z) * (x * z))) * (F1 + y)); [unfold k; ring|]. rewrite IN. ring. }
  assert (EV : (y * z + z) * Finv ((z - y * z) * (x * z)) * z * Fm = mv P).
  { unfold mv. rewrite <- EU. fold x. set (i := Finv ((z - y * z) * (x * z))) in *. clearbody i. field. exact PX. }
  eapply fr_eq in HU; [|exact EU]. eapply fr_eq in HV; [|exact EV]. clear EU EV IN. set (u := mu P) in *.
  destruct (mu_mont P PX PY) as [MM U0]. fold u in MM, U0.
  pose proof (fr_add _ _ _ _ _ _ HU fr_A2 ltac:(lia)) as HB. set (fb := FeAdd fu c_A) in *. clearbody fb. set (b := u + FA) in *.
  destruct (sbm_powers fu fb) as [[c b3] b8] eqn:EP. destruct (powers_ok _ _ _ _ _ _ _ HU HB EP) as (HC & H3 & H8). clear EP.
  pose proof (chi_ok _ _ _ _ _ HU HB HC) as HX. set (fx := sbm_chi fu fb c) in *. clearbody fx.
  destruct (fr_tobytes _ _ _ HX ltac:(lia)) as (LX & VX & _). set (sx := fst (FeToBytes fx)) in *. clearbody sx.
  rewrite oo_square in VX.
  assert (CH : Fchi (w7 u b) = Fchi (u * b)).
  { destruct (F_dec b F0) as [E|E]; [|now apply chi_w7]. rewrite E. replace (w7 u F0) with F0 by (unfold w7; ring). replace (u * F0) with F0 by ring. reflexivity. }
  rewrite CH in VX.
  assert (Tri : - Fchi (u * b) = F1 \/ - Fchi (u * b) = - F1 \/ - Fchi (u * b) = F0).
  { destruct (F_dec (u * b) F0) as [E|N]; [right; right; rewrite E, Fchi_0; ring|]. destruct (Fchi_values _ N) as [E|E]; rewrite E; [right; left; reflexivity|left; ring]. }
  rewrite (chi_byte _ sx Tri LX VX). destruct (F_dec (- Fchi (u * b)) (- F1)) as [E|E].
  - left. split; [|reflexivity]. transitivity (- - Fchi (u * b)); [ring|]. rewrite E. ring.
  - right. split; [intro Q; apply E; rewrite Q; reflexivity|].
    pose proof (r1_ok _ _ _ _ _ _ HU HB HC H3) as R1. set (fr1 := sbm_r1 fu fb c b3) in *. clearbody fr1.
    pose proof (r_ok _ _ _ _ _ _ HU HB HC H8) as R0. set (fr0 := sbm_r fu fb c b8) in *. clearbody fr0.
    destruct (fr_tobytes _ _ _ HV ltac:(lia)) as (LV & VV & _). set (sv := fst (FeToBytes fv)) in *. clearbody sv.
    destruct half_bytes as [LH VH]. 
    destruct (fr_tobytes _ _ _ HU ltac:(lia)) as (LU & VU & _). set (su := fst (FeToBytes fu)) in *. clearbody su.
    pose proof (loop_state sv halfQMinus1Bytes ltac:(rewrite LV, LH; reflexivity)) as CS.
    assert (FL : feBytesLE sv halfQMinus1Bytes = Z.b2z (Z.ltb (F2Z (mv P)) ((p25519 - 1) / 2))).
    { unfold feBytesLE. destruct (feBytesLE_loop _) as [e g]. unfold cmp_state in CS. cbn [fst snd] in CS. rewrite VV, VH in CS.
      destruct CS as [(C1 & -> & ->)|[(C1 & -> & ->)|(C1 & -> & ->)]].
      - rewrite (proj2 (Z.ltb_ge _ _)) by lia. reflexivity.
      - rewrite (proj2 (Z.ltb_lt _ _)) by lia. reflexivity.
      - rewrite (proj2 (Z.ltb_ge _ _)) by lia. reflexivity. }
    rewrite FL. rewrite FeCMove_ok; [|eapply fr_length; exact R0|eapply fr_length; exact R1|destruct (Z.ltb _ _); auto].
    unfold rep_of. cbv zeta. fold u. fold b.
    destruct (Z.ltb (F2Z (mv P)) ((p25519 - 1) / 2)); cbn [Z.b2z Z.eqb Pos.eqb].
    + destruct (fr_tobytes _ _ _ R1 ltac:(lia)) as (LR & VR & _). set (sr := fst (FeToBytes fr1)) in *. clearbody sr.
      exists su, sr. split; [reflexivity|]. split; [exact LU|]. split; [exact LR|]. split; [exact VU|exact VR].
    + destruct (fr_tobytes _ _ _ R0 ltac:(lia)) as (LR & VR & _). set (sr := fst (FeToBytes fr0)) in *. clearbody sr.
      exists su, sr. split; [reflexivity|]. split; [exact LU|]. split; [exact LR|]. split; [exact VU|exact VR].
Qed.

(** ** [PublicKeyToCurve25519] *)
Lemma FromParityAndY_Y T0 bit y : eY (snd (FromParityAndY T0 bit y)) = y.
Proof.
  unfold FromParityAndY. cbv zeta.
  set (f0 := FeSquare y). clearbody f0. set (v0 := FeMul f0 c_d). clearbody v0.
  set (fu := FeSub f0 FeOne). clearbody fu. set (fv := FeAdd v0 FeOne). clearbody fv.
  set (w0 := FeSquare fv). clearbody w0. set (w3 := FeMul w0 fv). clearbody w3.
  set (x0 := FeSquare w3). clearbody x0. set (x1 := FeMul x0 fv). clearbody x1. set (x2 := FeMul x1 fu). clearbody x2.
  set (x3 := fePow22523 x2). clearbody x3. set (x4 := FeMul x3 w3). clearbody x4. set (x5 := FeMul x4 fu). clearbody x5.
  set (y0 := FeSquare x5). clearbody y0. set (y1 := FeMul y0 fv). clearbody y1.
  set (c1 := fst (FeIsNonZero (FeSub y1 fu))). clearbody c1. set (c2 := fst (FeIsNonZero (FeAdd y1 fu))). clearbody c2.
  set (x6 := snd (FeToBytes (FeMul x5 c_SqrtM1))). clearbody x6.
  destruct (FeIsNegative x5) as [n5 z5]. destruct (FeIsNegative x6) as [n6 z6].
  destruct (Z.eqb c1 1); [destruct (Z.eqb c2 1)|]; cbn [snd eY]; reflexivity.
Qed.
Lemma FromBytes_Y T0 s : eY (snd (FromBytes T0 s)) = FeFromBytes s.
Proof. unfold FromBytes. apply FromParityAndY_Y. Qed.
Lemma etm_ok f y : fr 101 f y -> fr 101 (edwardsToMontgomeryX f) ((F1 + y) * Finv (F1 - y)).
Proof.
  intro H. unfold edwardsToMontgomeryX. cbv zeta. pose proof (fr_one 1 ltac:(lia)) as O.
  pose proof (fr_sub _ _ _ _ _ _ O H ltac:(lia)) as H1. pose proof (fr_invert _ _ _ H1 ltac:(lia)) as H2.
  pose proof (fr_add _ _ _ _ _ _ O H ltac:(lia)) as H3. exact (fr_mul _ _ _ _ _ _ H3 H2 ltac:(lia) ltac:(lia)).
Qed.
Definition muz (P : point) : F := (F1 + py P) * Finv (F1 - py P).
Lemma muz_mu P : muz P = mu P. Proof. unfold muz, mu. rewrite Fdiv_def. reflexivity. Qed.

(** ** Clamping *)
Lemma clamp_lo b : byteZ (toByte (Z.land (byteZ b) 248)) = (8 * (byteZ b / 8))%Z.
Proof. destruct b; vm_compute; reflexivity. Qed.
Lemma clamp_hi b : byteZ (toByte (Z.lor (byteZ (toByte (Z.land (byteZ b) 127))) 64)) = (64 + byteZ b mod 64)%Z.
Proof. destruct b; vm_compute; reflexivity. Qed.
Lemma clamp_value x : length x = 32%nat -> (le_value (clamp x) = 2 ^ 254 + 8 * ((le_value x / 8) mod 2 ^ 251))%Z.
Proof.
  intro L. destruct x as [|b x]; [discriminate L|]. unfold clamp. cbv zeta. change (nth 0 (b :: x) x00) with b.
  change (update 0 (toByte (Z.land (byteZ b) 248)) (b :: x)) with (toByte (Z.land (byteZ b) 248) :: x).
  destruct (value31 (b :: x) L) as [E R].
  set (b' := toByte (Z.land (byteZ b) 248)). pose proof (clamp_lo b) as Lo. fold b' in Lo. clearbody b'.
  assert (L1 : length (b' :: x) = 32%nat) by exact L.
  rewrite (update_last (toByte (Z.land (byteZ (nth 31 (b' :: x) x00)) 127)) (b' :: x)) by exact L1.
  rewrite (nth_last _ _ L1). change (nth 31 (b' :: x) x00) with (nth 30 x x00). change (nth 31 (b :: x) x00) with (nth 30 x x00) in E. set (c := nth 30 x x00) in *.
  set (y := firstn 31 (b' :: x) ++ [toByte (Z.land (byteZ c) 127)]).
  assert (Ly : length y = 32%nat) by (unfold y; rewrite app_length, firstn_length, L1; reflexivity).
  rewrite (update_last _ y Ly). pose proof (clamp_hi c) as Hi. set (d := toByte (Z.lor _ 64)) in *. clearbody d.
  assert (Fy : firstn 31 y = firstn 31 (b' :: x)).
  { unfold y. rewrite firstn_app, firstn_firstn. replace (31 - length (firstn 31 (b' :: x)))%nat with 0%nat by (rewrite firstn_length, L1; reflexivity).
    cbn [firstn]. now rewrite app_nil_r. }
  rewrite Fy. assert (Lf : length (firstn 31 (b' :: x)) = 31%nat) by (rewrite firstn_length, L1; reflexivity).
  rewrite le_value_app, Lf. change (256 ^ Z.of_nat 31)%Z with (2 ^ 248)%Z.
  change (firstn 31 (b' :: x)) with (b' :: firstn 30 x). change (firstn 31 (b :: x)) with (b :: firstn 30 x) in E, R.
  cbn [le_value] in *. rewrite E, Hi, Lo. set (M := le_value (firstn 30 x)) in *. clearbody M.
  pose proof (byteZ_bound b) as B. pose proof (byteZ_bound c) as C. set (u := byteZ b) in *. set (v := byteZ c) in *. clearbody u v.
  pose proof (Z.div_mod u 8 ltac:(lia)) as D1. pose proof (Z.mod_pos_bound u 8 ltac:(lia)) as D2.
  pose proof (Z.div_mod v 64 ltac:(lia)) as D3. pose proof (Z.mod_pos_bound v 64 ltac:(lia)) as D4.
  assert (Q : ((u + 256 * M + 2 ^ 248 * v) / 8 = u / 8 + 32 * M + 2 ^ 245 * v)%Z).
  { symmetry. apply (Z.div_unique _ 8 _ (u mod 8)); lia. }
  rewrite Q. assert (Q2 : ((u / 8 + 32 * M + 2 ^ 245 * v) mod 2 ^ 251 = u / 8 + 32 * M + 2 ^ 245 * (v mod 64))%Z).
  { symmetry. apply (Z.mod_unique _ _ (v / 64)); lia. }
  rewrite Q2. lia.
Qed.
Lemma clamp_idem x : length x = 32%nat -> clamp (clamp x) = clamp x.
Proof.
  intro L. destruct (clamp_ok x L) as (Lc & _ & _). apply le_value_inj; [rewrite (proj1 (clamp_ok _ Lc)), Lc; reflexivity|].
  rewrite (clamp_value _ Lc), (clamp_value x L). set (k := ((le_value x / 8) mod 2 ^ 251)%Z). assert (K : (0 <= k < 2 ^ 251)%Z) by (apply Z.mod_pos_bound; lia).
  assert (Q : ((2 ^ 254 + 8 * k) / 8 = 2 ^ 251 + k)%Z) by (symmetry; apply (Z.div_unique _ 8 _ 0%Z); lia). rewrite Q.
  assert (Q2 : ((2 ^ 251 + k) mod 2 ^ 251 = k)%Z) by (symmetry; apply (Z.mod_unique _ _ 1%Z); lia). rewrite Q2. reflexivity.
Qed.

(** ** Montgomery's coordinate *)
Lemma muz_O P : py P = F1 -> muz P = F0.
Proof. intro H. unfold muz. rewrite H. replace (F1 - F1) with F0 by ring. rewrite Finv_0. ring. Qed.
Lemma muz_eq P : F1 - py P <> F0 -> muz P * (F1 - py P) = F1 + py P.
Proof. intro H. unfold muz. transitivity ((F1 + py P) * (Finv (F1 - py P) * (F1 - py P))); [ring|]. rewrite Finv_l by exact H. ring. Qed.
Lemma muz_m1 P : F1 - py P <> F0 -> muz P <> - F1.
Proof.
  intros N H. pose proof (muz_eq P N) as E. rewrite H in E. apply F2_neq_0.
  transitivity (F1 + py P - (- F1 * (F1 - py P))); [ring|]. rewrite E. ring.
Qed.
Lemma muz_inj P Q : F1 - py P <> F0 -> F1 - py Q <> F0 -> muz P = muz Q -> py P = py Q.
Proof.
  intros NP NQ H. pose proof (muz_eq P NP) as E. pose proof (muz_eq Q NQ) as E'. rewrite <- H in E'. pose proof (muz_m1 P NP) as N. set (u := muz P) in *. clearbody u.
  assert (U : u + F1 <> F0). { intro Z. apply N. apply Fsub_zero. rewrite <- Z. ring. }
  apply (Fmul_cancel_r _ _ (u + F1) U).
  transitivity (u - F1 + ((F1 + py P) - u * (F1 - py P))); [ring|]. rewrite <- E. transitivity (u - F1 + ((F1 + py Q) - u * (F1 - py Q))); [rewrite <- E'|]; ring.
Qed.
Lemma muz_zero P : muz P = F0 -> py P = F1 \/ py P = - F1.
Proof.
  intro H. destruct (F_dec (F1 - py P) F0) as [E|N].
  - left. symmetry. now apply Fsub_zero.
  - right. pose proof (muz_eq P N) as E. rewrite H in E. apply Fsub_zero. transitivity (F1 + py P); [ring|]. rewrite <- E. ring.
Qed.
Lemma pk_ok s : length s = 32%nat ->
  (exists P pk, py P = Z2F (le_value s mod 2 ^ 255) /\ PublicKeyToCurve25519 s = Some pk /\ length pk = 32%nat /\ le_value pk = F2Z (muz P)) \/
  (PublicKeyToCurve25519 s = None /\ forall P, py P <> Z2F (le_value s mod 2 ^ 255)).
Proof.
  intro L. unfold PublicKeyToCurve25519. pose proof (FromBytes_ok FeZero s L) as K. cbv zeta in K.
  pose proof (FromBytes_Y FeZero s) as Y.
  set (q := FromBytes FeZero s) in *. clearbody q. destruct q as [b A]. cbn [fst snd] in K, Y.
  destruct K as [[-> (P & X & D)]|[-> N]]; [left|right; split; [reflexivity|exact N]].
  pose proof (fr_frombytes s L) as H. rewrite <- Y in H. pose proof (etm_ok _ _ H) as E. destruct (fr_tobytes _ _ _ E ltac:(lia)) as (L1 & V1 & _).
  exists P, (fst (FeToBytes (edwardsToMontgomeryX (eY A)))). split; [exact (proj1 D)|]. split; [reflexivity|]. split; [exact L1|].
  rewrite V1. unfold muz. rewrite (proj1 D). reflexivity.
Qed.
Lemma pk_enc P : exists pk, PublicKeyToCurve25519 (encode P) = Some pk /\ length pk = 32%nat /\ le_value pk = F2Z (muz P).
Proof.
  assert (M : Z2F (le_value (encode P) mod 2 ^ 255) = py P).
  { rewrite encode_value. unfold enc. pose proof (F2Z_bound (py P)) as B. rewrite Z.mul_comm, Z_mod_plus_full, Z.mod_small by lia. apply Z2F_F2Z. }
  destruct (pk_ok (encode P) (encode_length P)) as [(Q & pk & E & K & L & V)|[_ N]].
  - rewrite M in E. exists pk. split; [exact K|]. split; [exact L|]. rewrite V. unfold muz. rewrite E. reflexivity.
  - exfalso. apply (N P). rewrite M. reflexivity.
Qed.
Lemma rep_pk_ok r : length r = 32%nat -> length (RepresentativeToPublicKey r) = 32%nat /\
  le_value (RepresentativeToPublicKey r) = F2Z (ell_u (Z2F (le_value r mod 2 ^ 255))).
Proof.
  intro L. unfold RepresentativeToPublicKey. pose proof (rtm_ok _ _ (fr_frombytes r L)) as H.
  destruct (fr_tobytes _ _ _ H ltac:(lia)) as (L1 & V1 & _). split; [exact L1|exact V1].
Qed.
Lemma rep_val r : (F2Z r mod 2 ^ 255 = F2Z r)%Z. Proof. pose proof (F2Z_bound r) as B. apply Z.mod_small. lia. Qed.

(** ** The representative is one *)
Lemma rho_zero u : rho0 u F0 = F0. Proof. unfold rho0. ring. Qed.
Lemma rho1_zero u : rho1 u F0 = F0. Proof. unfold rho1. ring. Qed.
Lemma FA_nonzero : FA <> F0.
Proof. unfold FA. rewrite F0_def, Z2F_eq. intro H. revert H. vm_compute. discriminate. Qed.
Lemma mont_chi P : px P <> F0 -> F1 - py P <> F0 -> Fchi (mont (mu P)) <> - F1.
Proof.
  intros X Y. destruct (mu_mont P X Y) as [M U]. rewrite <- M. rewrite Fchi_square.
  - intro H. apply Fopp1_neq_1. symmetry. exact H.
  - intro Z. rewrite Z in M. assert (K : mont (mu P) = F0) by (rewrite <- M; ring). rewrite mont_factor in K. revert K. apply Fmul_nonzero; [exact U|apply quad_nonzero].
Qed.
Lemma corrected_zero t : corrected F0 t = F0. Proof. unfold corrected. destruct (F_dec t F0); [reflexivity|ring]. Qed.
Lemma rep_of_ok P : px P <> F0 -> F1 - py P <> F0 -> Fchi (mu P * (mu P + FA)) <> F1 -> ell_u (rep_of P) = mu P.
Proof.
  intros X Y N. destruct (mu_mont P X Y) as [M U]. pose proof (mont_chi P X Y) as MC. unfold rep_of. cbv zeta.
  destruct (F_dec (mu P + FA) F0) as [B|B].
  - rewrite B, rho_zero, rho1_zero, !corrected_zero. apply ell_first; [exact U|exact MC|].
    destruct (Z.ltb _ _); rewrite B; ring.
  - assert (C : Fchi (mu P * (mu P + FA)) = - F1). { destruct (Fchi_values _ (Fmul_nonzero _ _ U B)) as [K|K]; [contradiction|exact K]. }
    destruct (Z.ltb _ _).
    + apply ell_second; [exact U|exact B|exact MC|]. apply (rho1_ok (mu P) (mu P + FA) B C).
    + apply ell_first; [exact U|exact MC|]. exact (rho0_ok (mu P) (mu P + FA) B C).
Qed.
(** ** Collisions of the map *)
Lemma ell_v_sq r r' : r' * r' = r * r -> ell_v r' = ell_v r. Proof. intro H. unfold ell_v. rewrite H. reflexivity. Qed.
Lemma ell_v_eq r : ell_v r * (F1 + (F1 + F1) * (r * r)) = - FA.
Proof. unfold ell_v. pose proof (ell_den r) as D. set (k := F1 + _) in *. clearbody k. field. exact D. Qed.
Lemma ell_v_nonzero r : ell_v r <> F0.
Proof. intro H. pose proof (ell_v_eq r) as E. rewrite H in E. apply FA_nonzero. transitivity (- (- FA)); [ring|]. rewrite <- E. ring. Qed.
Lemma ell_v_inj r r' : ell_v r = ell_v r' -> r' * r' = r * r.
Proof.
  intro H. pose proof (ell_v_eq r) as E. pose proof (ell_v_eq r') as E'. rewrite <- H in E'. pose proof (ell_v_nonzero r) as N. set (v := ell_v r) in *. clearbody v.
  apply (Fmul_cancel_r _ _ ((F1 + F1) * v)); [apply Fmul_nonzero; [exact F2_neq_0|exact N]|].
  transitivity (v * (F1 + (F1 + F1) * (r' * r')) - v); [ring|]. rewrite E', <- E. ring.
Qed.
Lemma ell_v_other r r' : ell_v r' = - ell_v r - FA <-> (F1 + F1) * (F1 + F1) * (r * r) * (r' * r') = F1.
Proof.
  pose proof (ell_v_eq r) as E. pose proof (ell_v_eq r') as E'. pose proof (ell_v_nonzero r) as N. pose proof (ell_den r') as D'.
  set (v := ell_v r) in *. set (v' := ell_v r') in *. clearbody v v'.
  (* (-v - A) (1 + 2 r'^2) = v * 2 r^2 (1 + 2 r'^2) *)
  assert (K : (- v - FA) * (F1 + (F1 + F1) * (r' * r')) = v * ((F1 + F1) * (r * r)) * (F1 + (F1 + F1) * (r' * r'))).
  { assert (Q : - v - FA = v * ((F1 + F1) * (r * r))). { transitivity (- v + - FA); [ring|]. rewrite <- E. ring. } rewrite Q. reflexivity. }
  split; intro H.
  - rewrite H in E'. rewrite K, <- E in E'. apply (Fmul_cancel_r _ _ v N). symmetry.
    transitivity (v * (F1 + (F1 + F1) * (r * r)) - v * ((F1 + F1) * (r * r))); [ring|]. rewrite <- E'. ring.
  - apply (Fmul_cancel_r _ _ _ D'). rewrite E', K. rewrite <- E.
    transitivity (v * ((F1 + F1) * (F1 + F1) * (r * r) * (r' * r')) + v * ((F1 + F1) * (r * r))); [rewrite H; ring|ring].
Qed.
Lemma mont_v_nonzero r : mont (ell_v r) <> F0.
Proof. rewrite mont_factor. apply Fmul_nonzero; [apply ell_v_nonzero|apply quad_nonzero]. Qed.
Lemma chi_other r : r <> F0 -> Fchi (mont (- ell_v r - FA)) = - Fchi (mont (ell_v r)).
Proof.
  intro R. pose proof (ell_v_eq r) as E. pose proof (ell_v_nonzero r) as N. set (v := ell_v r) in *. clearbody v.
  assert (Q : - v - FA = v * ((F1 + F1) * (r * r))). { transitivity (- v + - FA); [ring|]. rewrite <- E. ring. }
  assert (K : mont (- v - FA) = (F1 + F1) * (r * r) * mont v).
  { transitivity ((- v - FA) * (v * v + FA * v + F1)); [unfold mont; ring|]. rewrite Q, mont_factor. ring. }
  rewrite K, !Fchi_mul, (Fchi_sq r R), Fchi_2. ring.
Qed.
Lemma ell_collide r r' : ell_u r = ell_u r' <-> (r' * r' = r * r \/ (F1 + F1) * (F1 + F1) * (r * r) * (r' * r') = F1).
Proof.
  split.
  - unfold ell_u. destruct (F_dec _ _) as [E|E], (F_dec _ _) as [E'|E']; intro H.
    + left. apply ell_v_inj. transitivity (- (- ell_v r - FA) - FA); [ring|]. rewrite H. ring.
    + right. apply ell_v_other. symmetry. exact H.
    + right. apply ell_v_other. rewrite H. ring.
    + left. apply ell_v_inj. exact H.
  - intros [H|H].
    + unfold ell_u. rewrite (ell_v_sq r r' H). reflexivity.
    + assert (R : r <> F0). { intros ->. apply F1_neq_0. rewrite <- H. ring. }
      apply ell_v_other in H. unfold ell_u. rewrite H, (chi_other r R).
      destruct (Fchi_values _ (mont_v_nonzero r)) as [K|K]; rewrite K.
      * destruct (F_dec F1 (- F1)) as [Z|_]; [destruct Fopp1_neq_1; symmetry; exact Z|].
        destruct (F_dec (- F1) (- F1)) as [_|Z]; [ring|destruct Z; reflexivity].
      * destruct (F_dec (- F1) (- F1)) as [_|Z]; [|destruct Z; reflexivity].
        destruct (F_dec (- - F1) (- F1)) as [Z|_]; [|ring]. exfalso. apply Fopp1_neq_1. rewrite <- Z. ring.
Qed.
Lemma ell_u_m1 r : ell_u r + F1 <> F0.
Proof.
  intro H. assert (U : ell_u r = - F1) by (apply Fsub_zero; rewrite <- H; ring).
  destruct (ell_u_square r) as [w W]. rewrite U in W. assert (M : mont (- F1) = FA - F1 - F1) by (unfold mont; ring). rewrite M in W.
  pose proof Fchi_disc as C. replace (FA * FA - (F1 + F1) * (F1 + F1)) with ((FA + F1 + F1) * (FA - F1 - F1)) in C by ring.
  rewrite Fchi_mul, Fchi_A2, <- W in C.
  destruct (F_dec w F0) as [Z|Z].
  - rewrite Z in C. replace (F0 * F0) with F0 in C by ring. rewrite Fchi_0 in C. apply F1_neq_0. transitivity (- - F1); [ring|]. rewrite <- C. ring.
  - rewrite (Fchi_square _ Z) in C. apply Fopp1_neq_1. rewrite <- C. ring.
Qed.
Lemma ell_y_inj u u' : u + F1 <> F0 -> u' + F1 <> F0 -> ell_y u = ell_y u' -> u = u'.
Proof.
  intros N N' H. unfold ell_y in H.
  assert (K : (u - F1) * (u' + F1) = (u' - F1) * (u + F1)).
  { transitivity (Finv (u + F1) * (u + F1) * ((u - F1) * (u' + F1))); [rewrite Finv_l by exact N; ring|].
    transitivity (Finv (u + F1) * (u - F1) * ((u + F1) * (u' + F1))); [ring|]. rewrite H.
    transitivity (Finv (u' + F1) * (u' + F1) * ((u' - F1) * (u + F1))); [ring|]. rewrite Finv_l by exact N'. ring. }
  apply (Fmul_cancel_r _ _ (F1 + F1) F2_neq_0). apply Fsub_zero.
  transitivity ((u - F1) * (u' + F1) - (u' - F1) * (u + F1)); [ring|]. rewrite K. ring.
Qed.
Lemma FA_nonsquare : Fchi FA = - F1.
Proof.
  apply (twice_square_chi _ (Z2F 14068740502457128763358203724101811009525201208888763515543172612877041031255)).
  - rewrite F0_def, Z2F_eq. intro H. revert H. vm_compute. discriminate.
  - unfold FA. rewrite F1_def, <- Z2F_add, <- !Z2F_mul. apply Z2F_eq. vm_compute. reflexivity.
Qed.
Lemma ell_0 : ell_u F0 = F0.
Proof.
  assert (V : ell_v F0 = - FA). { pose proof (ell_v_eq F0) as E. rewrite <- E. ring. }
  unfold ell_u. rewrite V. assert (Q : mont (- FA) = - F1 * FA) by (unfold mont; ring). rewrite Q, Fchi_mul, Fchi_opp1, FA_nonsquare.
  destruct (F_dec _ _) as [E|E]; [ring|]. exfalso. apply E. ring.
Qed.
(** the coordinate of a point given projectively *)
Lemma mu_check x y z u P : zrep (x, y, z) P -> F1 - py P <> F0 -> ((u * (z - y) - (z + y)) mod p25519 = 0)%Z -> muz P = Z2F u.
Proof.
  intros (Nz & X & Y) N H. apply Z2F_zero in H. rewrite Z2F_sub, Z2F_mul, Z2F_sub, Z2F_add, Y in H.
  apply (Fmul_cancel_r _ _ _ N). rewrite muz_eq by exact N. apply (Fmul_cancel_r _ _ _ Nz). symmetry. apply Fsub_zero. rewrite <- H. ring.
Qed.
