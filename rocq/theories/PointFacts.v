(** [FromBytesBaseGroup] and the hash to the curve. *)
From Coq Require Import List NArith ZArith Lia Bool Arith Znumtheory Field.
From Verif Require Import Base Extra25519 GoInt Field FieldSpec FieldFacts FieldBytes FieldPow EdConst Group NumTheory Fp EdGroup EdOrder Scalar GroupFacts EncFacts MulFacts BaseFacts.
Import ListNotations.
Local Open Scope F_scope.

(** ** Byte strings and numbers *)
Lemma byteZ_inj a b : byteZ a = byteZ b -> a = b.
Proof.
  unfold byteZ. intro H. apply N2Z.inj in H. apply (f_equal Byte.of_N) in H. rewrite !Byte.of_to_N in H. congruence.
Qed.
Lemma le_value_inj a : forall b, length a = length b -> le_value a = le_value b -> a = b.
Proof.
  induction a as [|x a IH]; intros [|y b] L E; try discriminate L; [reflexivity|]. injection L as L. cbn [le_value] in E.
  pose proof (byteZ_bound x). pose proof (byteZ_bound y). f_equal; [apply byteZ_inj; lia|apply IH; [exact L|lia]].
Qed.
Lemma bytes_eqb_ok a b : bytes_eqb a b = true <-> a = b.
Proof. unfold bytes_eqb. destruct (list_eq_dec _ a b); split; congruence. Qed.
Lemma bytes_eqb_false a b : bytes_eqb a b = false <-> a <> b.
Proof. rewrite <- not_true_iff_false, bytes_eqb_ok. reflexivity. Qed.
Lemma one_bytes_ok : length one_bytes = 32%nat /\ le_value one_bytes = 1%Z.
Proof. vm_compute. now split. Qed.
Lemma zero_bytes_ok : length zero_bytes = 32%nat /\ le_value zero_bytes = 0%Z.
Proof. vm_compute. now split. Qed.
Lemma order_bytes : length BasePointOrder = 32%nat /\ le_value BasePointOrder = L25519.
Proof. vm_compute. now split. Qed.
(** the byte string of a point *)
Lemma enc_bytes_unique s s' P : length s = 32%nat -> length s' = 32%nat -> le_value s = enc P -> le_value s' = enc P -> s = s'.
Proof. intros L L' E E'. apply le_value_inj; congruence. Qed.

(** ** [FromBytesBaseGroup] *)
Lemma y0_order P : py P = F0 -> smul 4 P = pO.
Proof.
  intro Y. pose proof (onP P) as H. unfold oncurve in H. rewrite Y in H.
  assert (X : px P * px P = - F1). { transitivity (F0 - (F0 * F0 - px P * px P)); [ring|]. rewrite H. ring. }
  set (x := px P) in *.
  assert (A1 : px (padd P P) = F0).
  { cbn [px padd mkP]. unfold addx. fold x. rewrite Y. assert (E : F1 + Fd * x * x * F0 * F0 = F1) by ring. rewrite E. pose proof F1_neq_0. field. exact F1_neq_0. }
  assert (A2 : py (padd P P) = - F1).
  { cbn [py padd mkP]. unfold addy. fold x. rewrite Y. assert (E : F1 - Fd * x * x * F0 * F0 = F1) by ring. rewrite E.
    transitivity (x * x); [field; exact F1_neq_0|exact X]. }
  replace 4%Z with (2 * 2)%Z by lia. rewrite smul_mul, !smul_2. set (Q := padd P P) in *. clearbody Q.
  apply point_ext; cbn [px py padd pO mkP]; unfold addx, addy; rewrite A1, A2.
  - assert (E : F1 + Fd * F0 * F0 * - F1 * - F1 = F1) by ring. rewrite E. field. exact F1_neq_0.
  - assert (E : F1 - Fd * F0 * F0 * - F1 * - F1 = F1) by ring. rewrite E. field. exact F1_neq_0.
Qed.
Lemma gcd_4_L : Z.gcd 4 L25519 = 1%Z. Proof. vm_compute. reflexivity. Qed.
Lemma enc_zero P : enc P = 0%Z -> py P = F0.
Proof.
  unfold enc. intro H. pose proof (F2Z_bound (py P)). assert (E : F2Z (py P) = 0%Z) by (destruct (parity (px P)); cbn [Z.b2z] in H; lia).
  rewrite <- (Z2F_F2Z (py P)), E. symmetry. apply F0_def.
Qed.
(** The points of the prime-order group other than the neutral one, in their
    only encoding; and nothing else. *)
Definition subgroup (P : point) : Prop := smul L25519 P = pO.
Lemma order_test q P : ext_ok q P -> length (ext_ToBytes (GeScalarMult BasePointOrder q)) = 32%nat /\
  le_value (ext_ToBytes (GeScalarMult BasePointOrder q)) = enc (smul L25519 P).
Proof.
  intro X. destruct order_bytes as [LO VO]. pose proof (GeScalarMult_ok _ _ _ LO X) as M. rewrite VO in M. exact (ext_ToBytes_ok _ _ M).
Qed.
(** the decisions, with the computations abstracted *)
Definition decide_base (o z s : bytes) (r : bool * extended) (e e' : extended -> bytes) : option extended :=
  if bytes_eqb s o then None
  else match r with
  | (false, _) => None
  | (true, p) => if negb (bytes_eqb (e p) s) then None else if negb (bytes_eqb (e' p) o) then None else if bytes_eqb s z then None else Some p
  end.
Lemma decide_base_ok s : FromBytesBaseGroup s = decide_base one_bytes zero_bytes s (FromBytes FeZero s) ext_ToBytes (fun p => ext_ToBytes (GeScalarMult BasePointOrder p)).
Proof. unfold FromBytesBaseGroup, decide_base. reflexivity. Qed.
Lemma decide_base_some o z s r e e' p : decide_base o z s r e e' = Some p -> s <> o /\ fst r = true /\ p = snd r /\ e p = s /\ e' p = o.
Proof.
  unfold decide_base. intro H.
  destruct (bytes_eqb s o) eqn:E1; [discriminate H|]. apply bytes_eqb_false in E1. destruct r as [[] q]; [|discriminate H].
  destruct (bytes_eqb (e q) s) eqn:E2; cbn [negb] in H; [|discriminate H]. apply bytes_eqb_ok in E2.
  destruct (bytes_eqb (e' q) o) eqn:E3; cbn [negb] in H; [|discriminate H]. apply bytes_eqb_ok in E3.
  destruct (bytes_eqb s z); [discriminate H|]. injection H as <-. cbn [fst snd]. auto.
Qed.
Lemma decide_base_of o z s r (e e' : extended -> bytes) : s <> o -> s <> z -> fst r = true -> e (snd r) = s -> e' (snd r) = o -> decide_base o z s r e e' = Some (snd r).
Proof.
  intros N1 N2 R E E'. unfold decide_base. destruct r as [b q]. cbn [fst snd] in *. subst b.
  rewrite (proj2 (bytes_eqb_false _ _) N1), (proj2 (bytes_eqb_ok _ _) E), (proj2 (bytes_eqb_ok _ _) E'), (proj2 (bytes_eqb_false _ _) N2). reflexivity.
Qed.
Lemma FromBytesBaseGroup_some s p : length s = 32%nat -> FromBytesBaseGroup s = Some p ->
  exists P, ext_ok p P /\ le_value s = enc P /\ subgroup P /\ P <> pO.
Proof.
  intros L H. rewrite decide_base_ok in H. apply decide_base_some in H. destruct H as (N1 & R & -> & E & E').
  destruct one_bytes_ok as [LI VI].
  destruct (FromBytes_ok FeZero s L) as [[_ (P & X & _)]|[R' _]]; [|rewrite R in R'; discriminate R'].
  destruct (ext_ToBytes_ok _ _ X) as [_ V1]. destruct (order_test _ P X) as [_ V2]. rewrite E in V1. rewrite E' in V2.
  exists P. split; [exact X|]. split; [exact V1|]. split.
  - apply enc_inj. rewrite <- V2, VI. symmetry. apply enc_O.
  - intros ->. apply N1. apply le_value_inj; [rewrite L, LI; reflexivity|]. rewrite V1, VI. apply enc_O.
Qed.
Lemma FromBytesBaseGroup_of s P : length s = 32%nat -> le_value s = enc P -> subgroup P -> P <> pO -> exists p, FromBytesBaseGroup s = Some p /\ ext_ok p P.
Proof.
  intros L V S N. destruct (enc_decodes FeZero s P L V) as [R X].
  destruct one_bytes_ok as [LI VI]. destruct zero_bytes_ok as [_ VZ].
  destruct (ext_ToBytes_ok _ _ X) as [L1 V1]. destruct (order_test _ P X) as [L2 V2]. unfold subgroup in S. rewrite S in V2.
  exists (snd (FromBytes FeZero s)). split; [|exact X]. rewrite decide_base_ok. apply decide_base_of.
  - intros E1. destruct N. apply enc_inj. rewrite <- V, E1, VI. symmetry. apply enc_O.
  - intros E4. rewrite E4, VZ in V. symmetry in V. apply enc_zero in V.
    apply N. rewrite <- (smul_1 P), <- gcd_4_L. apply smul_gcd; [now apply y0_order|exact S].
  - exact R.
  - exact (enc_bytes_unique _ _ P L1 L V1 V).
  - apply (enc_bytes_unique _ _ pO L2 LI V2). rewrite VI. symmetry. apply enc_O.
Qed.

(** ** Elligator *)
Definition FA : F := Z2F 486662.
Lemma fr_A : fr 101 c_A FA.
Proof. apply fr_const; vm_compute; reflexivity. Qed.
Lemma Fchi_0 : Fchi F0 = F0.
Proof. unfold Fchi. apply Fpow_zero. apply half_pos. Qed.
Lemma Fchi_opp1 : Fchi (- F1) = F1.
Proof. replace (- F1) with (Fi * Fi) by (rewrite Fi_square; reflexivity). apply Fchi_square. intro H. apply F1_neq_0. transitivity (- (Fi * Fi)); [rewrite Fi_square; ring|rewrite H; ring]. Qed.
Lemma Fchi_eval z : Fchi (Z2F z) = Z2F (Zpow_facts.Zpow_mod z ((p25519 - 1) / 2) p25519).
Proof. unfold Fchi. apply Z2F_pow_eval. pose proof half_pos. lia. Qed.
Lemma Z2F_1 : Z2F 1 = F1. Proof. symmetry. apply F1_def. Qed.
Lemma Z2F_m1 : Z2F (p25519 - 1) = - F1.
Proof. rewrite <- Z2F_1, <- Z2F_opp. apply Z2F_eqp. exists 1%Z. ring. Qed.
Lemma Fchi_A2 : Fchi (FA + F1 + F1) = F1.
Proof.
  assert (E : Z2F 48802004052532134862652268456126542835229456083994414501085850622543968879637 * Z2F 48802004052532134862652268456126542835229456083994414501085850622543968879637 = FA + F1 + F1).
  { unfold FA. rewrite <- Z2F_1, <- !Z2F_add, <- Z2F_mul. apply Z2F_eq. vm_compute. reflexivity. }
  rewrite <- E. apply Fchi_square. rewrite F0_def, Z2F_eq. intro H. revert H. vm_compute. discriminate.
Qed.
Lemma Fchi_disc : Fchi (FA * FA - (F1 + F1) * (F1 + F1)) = - F1.
Proof.
  apply (twice_square_chi _ (Z2F 22814608461444720273592656585502654319980708783492843055400821547542719046937)).
  - rewrite F0_def, Z2F_eq. intro H. revert H. vm_compute. discriminate.
  - unfold FA. rewrite <- Z2F_2, <- !Z2F_mul, <- Z2F_sub. apply Z2F_eq. vm_compute. reflexivity.
Qed.
(** Euler's criterion *)
Lemma square_root a : Fchi a <> - F1 -> exists w, w * w = a.
Proof.
  intro H. destruct (F_dec a F0) as [->|N]; [exists F0; ring|].
  destruct (root0_cases a F1 F1_neq_0) as [R|[R|(_ & _ & R)]].
  - exists (root0 a F1). transitivity (F1 * (root0 a F1 * root0 a F1)); [ring|exact R].
  - exists (Fi * root0 a F1). transitivity ((Fi * Fi) * (F1 * (root0 a F1 * root0 a F1))); [ring|]. rewrite Fi_square, R. ring.
  - exfalso. destruct (Fchi_values a N) as [E|E]; [|contradiction].
    destruct quarter as (_ & _ & B & C). assert (W : w7 a F1 = a) by (unfold w7; ring).
    pose proof (root0_square a F1) as S. rewrite W in S.
    assert (O : Fpow a ((p25519 - 1) / 4) * Fpow a ((p25519 - 1) / 4) = F1) by (rewrite Fpow_plus, C by lia; exact E).
    apply Fsquare_one in O. destruct O as [O|O]; rewrite O in S.
    + apply (R (root0 a F1)). rewrite S. ring.
    + apply (R (Fi * root0 a F1)). transitivity ((Fi * Fi) * (F1 * (root0 a F1 * root0 a F1))); [ring|]. rewrite Fi_square, S. ring.
Qed.
Lemma chi_square_iff a : Fchi a <> - F1 <-> exists w, w * w = a.
Proof.
  split; [apply square_root|]. intros [w E] H. exact (nonsquare a H w E).
Qed.

(** The right side of Montgomery's form, and the map of the paper: [u] is
    v = -A/(1 + 2 r^2) if that is the first coordinate of a point, -v - A
    otherwise. *)
Definition mont (u : F) : F := u * u * u + FA * (u * u) + u.
Definition ell_v (r : F) : F := - (FA / (F1 + (F1 + F1) * (r * r))).
Definition ell_u (r : F) : F := if F_dec (Fchi (mont (ell_v r))) (- F1) then - ell_v r - FA else ell_v r.
Lemma ell_den r : F1 + (F1 + F1) * (r * r) <> F0.
Proof.
  intro H. destruct (F_dec r F0) as [->|N]; [apply F1_neq_0; rewrite <- H; ring|].
  assert (E : Fchi ((F1 + F1) * (r * r)) = F1). { replace ((F1 + F1) * (r * r)) with (- F1); [exact Fchi_opp1|]. transitivity (F0 - F1); [ring|]. rewrite <- H. ring. }
  rewrite Fchi_mul, Fchi_2, Fchi_square in E by exact N. apply Fopp1_neq_1. transitivity (- F1 * F1); [ring|exact E].
Qed.
Lemma ell_u_square r : exists w, w * w = mont (ell_u r).
Proof.
  apply square_root. unfold ell_u. destruct (F_dec (Fchi (mont (ell_v r))) (- F1)) as [E|E]; [|exact E].
  pose proof (ell_den r) as D. set (v := ell_v r) in *.
  assert (V : - v - FA = (F1 + F1) * (r * r) * v). { unfold v, ell_v. set (k := F1 + (F1 + F1) * (r * r)) in *. assert (K : (F1 + F1) * (r * r) = k - F1) by (unfold k; ring). rewrite K. clearbody k. field. exact D. }
  assert (M : mont (- v - FA) = (F1 + F1) * (r * r) * mont v).
  { transitivity ((- v - FA) * (v * v + FA * v + F1)); [unfold mont; ring|]. rewrite V. unfold mont. ring. }
  rewrite M, Fchi_mul, Fchi_mul, E, Fchi_2. intro H. destruct (F_dec r F0) as [->|N].
  - replace (F0 * F0) with F0 in H by ring. rewrite Fchi_0 in H. apply F1_neq_0. transitivity (- (- F1 * F0 * - F1)); [rewrite H; ring|ring].
  - rewrite Fchi_square in H by exact N. apply Fopp1_neq_1. rewrite <- H. ring.
Qed.
Lemma quad_nonzero u : u * u + FA * u + F1 <> F0.
Proof.
  intro H. apply (nonsquare _ Fchi_disc ((F1 + F1) * u + FA)).
  transitivity ((F1 + F1) * (F1 + F1) * (u * u + FA * u + F1) + (FA * FA - (F1 + F1) * (F1 + F1))); [ring|]. rewrite H. ring.
Qed.
Lemma Fd_A : Fd * (FA + F1 + F1) = - (FA - F1 - F1).
Proof.
  unfold Fd, FA. rewrite <- Z2F_1, <- !Z2F_add, <- !Z2F_sub, <- Z2F_opp, <- Z2F_mul. apply Z2F_eqp. unfold eqp.
  apply Z.mod_divide; [pose proof p_pos; lia|]. vm_compute. reflexivity.
Qed.
Lemma A2_nonzero : FA + F1 + F1 <> F0.
Proof. intro H. pose proof Fchi_A2 as C. rewrite H, Fchi_0 in C. apply F1_neq_0. symmetry. exact C. Qed.
(** The second coordinate on the Edwards curve *)
Definition ell_y (u : F) : F := Finv (u + F1) * (u - F1).
Lemma Finv_0 : Finv F0 = F0.
Proof. rewrite Finv_def. apply Fpow_zero. pose proof p_gt1. vm_compute. reflexivity. Qed.
Lemma ell_on_curve u : (exists w, w * w = mont u) -> exists x, oncurve x (ell_y u).
Proof.
  intros [w W]. unfold ell_y. destruct (F_dec (u + F1) F0) as [U|U].
  - rewrite U, Finv_0. exists Fi. unfold oncurve. rewrite Fi_square. ring.
  - pose proof (quad_nonzero u) as Q. pose proof A2_nonzero as A2.
    destruct (F_dec u F0) as [->|N0].
    + exists F0. assert (Y : Finv (F0 + F1) * (F0 - F1) = - F1). { transitivity ((F0 - F1) / (F0 + F1)); [rewrite Fdiv_def; ring|]. field. exact F1_neq_0. }
      unfold oncurve. rewrite Y. ring.
    + assert (M : mont u = u * (u * u + FA * u + F1)) by (unfold mont; ring).
      assert (NW : w <> F0). { intro Z. apply (Fmul_nonzero _ _ N0 Q). rewrite <- M, <- W, Z. ring. }
      destruct (square_root (- (FA + F1 + F1))) as [c C].
      { replace (- (FA + F1 + F1)) with (- F1 * (FA + F1 + F1)) by ring. rewrite Fchi_mul, Fchi_opp1, Fchi_A2. intro H. apply Fopp1_neq_1. rewrite <- H. ring. }
      exists (c * u / w). apply oncurve_uv.
      assert (Y : Finv (u + F1) * (u - F1) = (u - F1) / (u + F1)) by (rewrite Fdiv_def; ring). rewrite Y.
      assert (X : c * u / w * (c * u / w) = - (FA + F1 + F1) * u / (u * u + FA * u + F1)).
      { transitivity ((c * c) * (u * u) / (w * w)); [field; exact NW|]. rewrite C, W, M.
        set (q := u * u + FA * u + F1) in *. clearbody q. field. split; assumption. }
      rewrite X. set (k := u + F1) in *.
      assert (Dk : Fd * ((u - F1) / k * ((u - F1) / k)) + F1 = (F1 + F1) * (F1 + F1) * (u * u + FA * u + F1) / ((FA + F1 + F1) * (k * k))).
      { transitivity ((Fd * (FA + F1 + F1) * ((u - F1) * (u - F1)) + (FA + F1 + F1) * (k * k)) / ((FA + F1 + F1) * (k * k))).
        - set (a2 := FA + F1 + F1) in *. clearbody a2. clearbody k. field. split; assumption.
        - rewrite Fd_A. apply f_equal2; [unfold k; ring|reflexivity]. }
      rewrite Dk. set (a2 := FA + F1 + F1) in *. set (q := u * u + FA * u + F1) in *.
      assert (K : u - F1 = k - (F1 + F1)) by (unfold k; ring). assert (K' : u = k - F1) by (unfold k; ring). rewrite K.
      clearbody a2 q. rewrite K'. clearbody k. clear K K' Dk X Y M C W N0. field. repeat split; assumption.
Qed.

(** ** The code of the hash to the curve *)
Lemma fr_incr f a : fr 101 f a -> fr 102 (incr0 f) (a + F1).
Proof.
  intros [[L B] V]. destruct f as [|x f]; [discriminate L|]. cbn [incr0].
  pose proof (B 0%nat ltac:(lia)) as B0. cbn [nth Nat.even] in B0.
  assert (W : wrap I32 (x + 1) = (x + 1)%Z). { apply wrap32_small. rewrite pow25 in B0. lia. }
  rewrite W. split; [split; [exact L|]|].
  - intros i Hi. specialize (B i Hi). destruct i as [|i]; cbn [nth] in *; [cbn [Nat.even]; rewrite pow25 in *; lia|].
    destruct (Nat.even (S i)); rewrite ?pow25, ?pow24 in *; lia.
  - unfold fval in *. rewrite <- V, <- Z2F_1, <- Z2F_add. apply f_equal. unfold fe_value. cbn [nth]. ring.
Qed.
Lemma chi_flag a s : (a = F1 \/ a = - F1 \/ a = F0) -> length s = 32%nat -> le_value s = F2Z a ->
  Z.land (byteZ (nth 1 s x00)) 1 = Z.b2z (if F_dec a (- F1) then true else false).
Proof.
  intros H L V. rewrite nth_byte, V. change (256 ^ Z.of_nat 1)%Z with 256%Z.
  destruct H as [->|[->| ->]].
  - destruct (F_dec F1 (- F1)) as [E|_]; [destruct Fopp1_neq_1; symmetry; exact E|]. rewrite F1_def, F2Z_Z2F. vm_compute. reflexivity.
  - destruct (F_dec (- F1) (- F1)) as [_|E]; [|destruct E; reflexivity]. rewrite <- Z2F_m1, F2Z_Z2F. vm_compute. reflexivity.
  - destruct (F_dec F0 (- F1)) as [E|_]. { exfalso. apply F1_neq_0. transitivity (- (- F1)); [ring|]. rewrite <- E. ring. }
    rewrite F0_def, F2Z_Z2F. vm_compute. reflexivity.
Qed.
Lemma rtm_ok f r : fr 101 f r -> fr 202 (representativeToMontgomeryX f) (ell_u r).
Proof.
  intro H. unfold representativeToMontgomeryX. cbv zeta.
  pose proof (fr_square2 _ _ _ H ltac:(lia)) as S2. set (f1 := FeSquare2 f) in *. clearbody f1.
  pose proof (fr_incr _ _ S2) as S3. set (f2 := incr0 f1) in *. clearbody f2.
  pose proof (fr_invert _ _ _ S3 ltac:(lia)) as S4. set (f3 := FeInvert f2) in *. clearbody f3.
  pose proof (fr_mul _ _ _ _ _ _ fr_A S4 ltac:(lia) ltac:(lia)) as S5. set (f4 := FeMul c_A f3) in *. clearbody f4.
  pose proof (fr_neg _ _ _ S5 ltac:(lia)) as Hv. set (v := FeNeg f4) in *. clearbody v.
  assert (E : - (FA * Finv ((F1 + F1) * (r * r) + F1)) = ell_v r).
  { unfold ell_v. replace ((F1 + F1) * (r * r) + F1) with (F1 + (F1 + F1) * (r * r)) by ring. rewrite Fdiv_def. reflexivity. }
  rewrite E in Hv. clear E. set (a := ell_v r) in *.
  pose proof (fr_square _ _ _ Hv ltac:(lia)) as H2. set (v2 := FeSquare v) in *. clearbody v2.
  pose proof (fr_mul _ _ _ _ _ _ Hv H2 ltac:(lia) ltac:(lia)) as H3. set (v3 := FeMul v v2) in *. clearbody v3.
  pose proof (fr_add _ _ _ _ _ _ H3 Hv ltac:(lia)) as H4. set (e1 := FeAdd v3 v) in *. clearbody e1.
  pose proof (fr_mul _ _ _ _ _ _ H2 fr_A ltac:(lia) ltac:(lia)) as H5. set (v4 := FeMul v2 c_A) in *. clearbody v4.
  pose proof (fr_add _ _ _ _ _ _ H5 H4 ltac:(lia)) as H6. set (e2 := FeAdd v4 e1) in *. clearbody e2.
  apply (fr_eq _ _ _ (mont a)) in H6; [|unfold mont; ring].
  pose proof (fr_chi _ _ _ H6 ltac:(lia)) as H7. set (e3 := chi e2) in *. clearbody e3.
  destruct (fr_tobytes _ _ _ H7 ltac:(lia)) as (L & V & _). set (s := fst (FeToBytes e3)) in *. clearbody s.
  assert (Tri : Fchi (mont a) = F1 \/ Fchi (mont a) = - F1 \/ Fchi (mont a) = F0).
  { destruct (F_dec (mont a) F0) as [E|N]; [right; right; rewrite E; exact Fchi_0|]. destruct (Fchi_values _ N); auto. }
  rewrite (chi_flag _ s Tri L V). unfold ell_u. fold a.
  pose proof (fr_neg _ _ _ Hv ltac:(lia)) as Hn. pose proof (fr_zero 101 ltac:(lia)) as Hz.
  pose proof fr_A as HA.
  rewrite !FeCMove_ok by (try (eapply fr_length; eassumption); destruct (F_dec _ _); cbn [Z.b2z]; lia).
  destruct (F_dec (Fchi (mont a)) (- F1)); cbn [Z.b2z Z.eqb Pos.eqb].
  - pose proof (fr_sub _ _ _ _ _ _ Hn HA ltac:(lia)) as R. exact R.
  - pose proof (fr_sub _ _ _ _ _ _ Hv Hz ltac:(lia)) as R. frm R.
Qed.
Lemma mte_ok f u : fr 202 f u -> fr 101 (montgomeryXToEdwardsY f) (ell_y u).
Proof.
  intro H. unfold montgomeryXToEdwardsY. cbv zeta. pose proof (fr_one 1 ltac:(lia)) as O.
  pose proof (fr_add _ _ _ _ _ _ H O ltac:(lia)) as A. pose proof (fr_invert _ _ _ A ltac:(lia)) as I.
  pose proof (fr_sub _ _ _ _ _ _ H O ltac:(lia)) as B. exact (fr_mul _ _ _ _ _ _ I B ltac:(lia) ltac:(lia)).
Qed.
Lemma mask_top h : length h = 32%nat -> let hh := firstn 31 h ++ [toByte (Z.land (byteZ (nth 31 h x00)) 127)] in
  length hh = 32%nat /\ le_value hh = (le_value h mod 2 ^ 255)%Z.
Proof.
  intro L. cbv zeta. destruct (value31 h L) as [E R]. assert (L' : length (firstn 31 h) = 31%nat) by (rewrite firstn_length; lia).
  split; [rewrite app_length, L'; reflexivity|]. rewrite le_value_app, L'. cbn [le_value]. rewrite byteZ_toByte.
  change (256 ^ Z.of_nat 31)%Z with (2 ^ 248)%Z. change 127%Z with (Z.ones 7). rewrite Z.land_ones by lia. rewrite E.
  set (t := byteZ (nth 31 h x00)) in *. change (2 ^ 255)%Z with (2 ^ 248 * 2 ^ 7)%Z.
  rewrite Z.rem_mul_r by lia. rewrite (Z.mul_comm (2 ^ 248) t), Z_mod_plus_full, Z.div_add, (Z.div_small (le_value (firstn 31 h))) by lia.
  rewrite (Z.mod_small (le_value (firstn 31 h))) by lia. pose proof (Z.mod_pos_bound t (2 ^ 7) ltac:(lia)) as B.
  rewrite (Z.mod_small _ 256) by (change (2 ^ 7)%Z with 128%Z in *; lia). rewrite Z.add_0_l. lia.
Qed.
(** [HashToEdwards] never panics: every hash is mapped to a point of the curve *)
Lemma HashToEdwards_ok T0 h : length h = 32%nat -> exists p P, HashToEdwards T0 h = Some p /\ ext_ok p P /\
  py P = ell_y (ell_u (Z2F (le_value h mod 2 ^ 255))) /\ (px P = F0 \/ parity (px P) = Z.testbit (le_value h) 255).
Proof.
  intro L. unfold HashToEdwards. cbv zeta. destruct (mask_top h L) as [L' V']. cbv zeta in L', V'.
  set (hh := firstn 31 h ++ [_]) in *. clearbody hh. rewrite (top_bit h L).
  pose proof (fr_frombytes hh L') as H. rewrite V', Z.mod_mod in H by lia.
  pose proof (mte_ok _ _ (rtm_ok _ _ H)) as Y. set (y := montgomeryXToEdwardsY _) in *. clearbody y.
  set (r := Z2F (le_value h mod 2 ^ 255)) in *.
  pose proof (FromParityAndY_ok T0 (Z.testbit (le_value h) 255) y _ Y) as K. cbv zeta in K.
  set (q := FromParityAndY T0 _ y) in *. clearbody q. destruct q as [b p]. cbn [fst snd] in K.
  destruct K as [[-> (P & X & Py & Par)]|[-> N]].
  - exists p, P. auto.
  - exfalso. destruct (ell_on_curve _ (ell_u_square r)) as [x O]. exact (N x O).
Qed.
