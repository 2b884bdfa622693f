(** C58 (the group), C59 (encodings), C60 (multiples), C61 (hashing to the curve).

    Specification.  [F] is the field with p = 2^255 - 19 elements, given by its
    axioms ([F_field], [F2Z_range]); a [point] is a pair of elements on the curve
    -x^2 + y^2 = 1 + d x^2 y^2 with d = -121665/121666; [padd] is addition by the
    affine formulas, restated below; [smul n P] is P added n times; [pB] is the
    standard base point (y = 4/5, x even).  [encode P] is the 32-byte
    little-endian number y + 2^255 * (x mod 2).
    The code's representations: [ext_ok p P] says that the ten-limb numbers in
    [p] are (X : Y : Z : T) with X = xZ, Y = yZ, T = xyZ and Z <> 0, within the
    limb bounds the field code needs; [proj_ok], [comp_ok], [cached_ok] and
    [pre_ok] do the same for the other representations of edwards25519.go:989-1007. *)
From Coq Require Import List NArith ZArith Lia Bool Arith Znumtheory Field.
From Verif Require Import Base Extra25519 GoInt Field FieldSpec FieldPow EdConst Group NumTheory Fp EdGroup EdOrder Scalar.
From Verif Require Import GroupFacts EncFacts MulFacts BaseFacts SmulFacts PointFacts EdCyclic VRF VRFSpec VRFFacts.
Import ListNotations.
Local Open Scope F_scope.

(** ** C58 *)
(** Addition is the addition law of the twisted Edwards curve, total, and an
    abelian group. *)
Theorem C58_addition_law : forall P Q : point,
  py P * py P - px P * px P = F1 + Fd * (px P * px P) * (py P * py P) /\
  Fd * Z2F 121666 = - Z2F 121665 /\
  (F1 + Fd * px P * px Q * py P * py Q) <> F0 /\ (F1 - Fd * px P * px Q * py P * py Q) <> F0 /\
  px (padd P Q) = (px P * py Q + py P * px Q) / (F1 + Fd * px P * px Q * py P * py Q) /\
  py (padd P Q) = (py P * py Q + px P * px Q) / (F1 - Fd * px P * px Q * py P * py Q).
Proof.
  intros P Q. split; [exact (onP P)|]. split; [rewrite Fd_spec; apply (Z2F_opp 121665)|].
  split; [apply den_plus; apply onP|]. split; [apply den_minus; apply onP|]. split; reflexivity.
Qed.
Theorem C58_group : forall P Q R : point,
  padd P (padd Q R) = padd (padd P Q) R /\ padd P Q = padd Q P /\ padd P pO = P /\ padd P (popp P) = pO /\
  px pO = F0 /\ py pO = F1 /\ px (popp P) = - px P /\ py (popp P) = py P.
Proof.
  intros P Q R. split; [apply padd_assoc|]. split; [apply padd_comm|]. split; [apply padd_O_r|]. split; [apply padd_opp_r|].
  split; [reflexivity|]. split; [reflexivity|]. split; reflexivity.
Qed.
Theorem C58_multiples : forall (m n : Z) P, smul 0 P = pO /\ smul (n + 1) P = padd (smul n P) P /\ smul (m * n) P = smul m (smul n P) /\ smul (- n) P = popp (smul n P).
Proof.
  intros m n P. split; [reflexivity|]. split; [rewrite smul_add, smul_1; reflexivity|]. split; [apply smul_mul|apply smul_opp].
Qed.
(** p and L are prime, the base point has order L, there are exactly 8 L points
    and they form a cyclic group. *)
Theorem C58_order : prime p25519 /\ prime L25519 /\
  Z2F 5 * py pB = Z2F 4 /\ Z.odd (F2Z (px pB)) = false /\ smul L25519 pB = pO /\ pB <> pO /\
  (exists all : list point, NoDup all /\ (forall P, In P all) /\ Z.of_nat (length all) = (8 * L25519)%Z) /\
  (exists G, forall P, exists n, P = smul n G) /\
  (forall P, smul L25519 P = pO -> exists x, (0 <= x < L25519)%Z /\ P = smul x pB).
Proof.
  split; [exact p_prime|]. split; [exact L_prime|]. destruct By_spec as [Y X]. split; [exact Y|]. split; [exact X|].
  split; [exact B_order|]. split; [exact B_not_O|]. destruct cyclic as (l & N & A & E & C).
  split; [exists l; auto|]. split; [exists gen; intro P; destruct (C P) as (n & _ & H); exists n; exact H|exact sub_base].
Qed.
(** The code's operations compute in this group, for all inputs, doublings and
    the neutral element included. *)
Theorem C58_add : forall a b P Q, ext_ok a P -> ext_ok b Q -> ext_ok (GeAdd a b) (padd P Q).
Proof. exact GeAdd_ok. Qed.
Theorem C58_double : forall a P, ext_ok a P -> ext_ok (GeDouble a) (padd P P).
Proof. exact GeDouble_ok. Qed.
Theorem C58_zero : ext_ok ext_Zero pO /\ proj_ok proj_Zero pO /\ pre_ok pre_Zero pO.
Proof. split; [exact ext_zero_ok|]. split; [exact proj_zero_ok|exact pre_zero_ok]. Qed.
Theorem C58_cached : forall p q P Q, ext_ok p P -> cached_ok q Q -> comp_ok (geAdd p q) (padd P Q) /\ comp_ok (geSub p q) (padd P (popp Q)).
Proof. intros p q P Q HP HQ. split; [now apply geAdd_ok|now apply geSub_ok]. Qed.
Theorem C58_mixed : forall p q P Q, ext_ok p P -> pre_ok q Q -> comp_ok (geMixedAdd p q) (padd P Q) /\ comp_ok (geMixedSub p q) (padd P (popp Q)).
Proof. intros p q P Q HP HQ. split; [now apply geMixedAdd_ok|now apply geMixedSub_ok]. Qed.
Theorem C58_conversions : (forall p P, ext_ok p P -> cached_ok (ext_ToCached p) P /\ proj_ok (ext_ToProjective p) P /\ comp_ok (ext_Double p) (padd P P)) /\
  (forall p P, comp_ok p P -> ext_ok (comp_ToExtended p) P /\ proj_ok (comp_ToProjective p) P) /\
  (forall p P T0, proj_ok p P -> ext_ok (proj_ToExtended T0 p) P /\ comp_ok (proj_Double p) (padd P P)).
Proof.
  split; [|split].
  - intros p P H. split; [now apply ext_to_cached|]. split; [now apply ext_to_proj|now apply ext_double_ok].
  - intros p P H. split; [now apply comp_to_ext|now apply comp_to_proj].
  - intros p P T0 H. split; [now apply proj_ToExtended_ok|now apply proj_double_ok].
Qed.
(** A representation denotes one point only. *)
Theorem C58_denotes_one : forall p P Q, ext_ok p P -> ext_ok p Q -> P = Q.
Proof. intros p P Q HP HQ. apply encode_inj. rewrite <- (ext_bytes _ _ HP). exact (ext_bytes _ _ HQ). Qed.

(** ** C59 *)
Theorem C59_to_bytes : (forall p P, ext_ok p P -> ext_ToBytes p = encode P) /\ (forall p P, proj_ok p P -> proj_ToBytes p = encode P).
Proof. split; [exact ext_bytes|exact proj_bytes]. Qed.
Theorem C59_encode : forall P Q, length (encode P) = 32%nat /\
  le_value (encode P) = (F2Z (py P) + 2 ^ 255 * Z.b2z (Z.odd (F2Z (px P))))%Z /\ (encode P = encode Q -> P = Q).
Proof. intros P Q. split; [apply encode_length|]. split; [apply encode_value|apply encode_inj]. Qed.
(** Decoding succeeds exactly on the strings whose low 255 bits are the second
    coordinate of a point, and gives the point whose first coordinate has the
    parity of the top bit. *)
Theorem C59_from_bytes : forall T0 s, length s = 32%nat ->
  (fst (FromBytes T0 s) = true <-> exists P, py P = Z2F (le_value s mod 2 ^ 255)) /\
  (fst (FromBytes T0 s) = true -> exists P, ext_ok (snd (FromBytes T0 s)) P /\ py P = Z2F (le_value s mod 2 ^ 255) /\
     (px P = F0 \/ Z.odd (F2Z (px P)) = Z.testbit (le_value s) 255)).
Proof.
  intros T0 s L. pose proof (FromBytes_ok T0 s L) as K. cbv zeta in K. set (r := FromBytes T0 s) in *. clearbody r. destruct r as [b q]. cbn [fst snd] in *.
  destruct K as [[-> (P & X & Y & Par)]|[-> N]].
  - split; [split; intro; [exists P; exact Y|reflexivity]|]. intros _. exists P. split; [exact X|]. split; [exact Y|exact Par].
  - split; [split; [intro H; discriminate H|intros [P H]; destruct (N P H)]|intro H; discriminate H].
Qed.
Theorem C59_round_trip : forall T0 P, fst (FromBytes T0 (encode P)) = true /\ ext_ok (snd (FromBytes T0 (encode P))) P /\
  ext_ToBytes (snd (FromBytes T0 (encode P))) = encode P.
Proof.
  intros T0 P. destruct (enc_decodes T0 (encode P) P (encode_length P) (encode_value P)) as [A B].
  split; [exact A|]. split; [exact B|]. apply ext_bytes. exact B.
Qed.
(** Keys and points of proofs: exactly the canonical encodings of the points of order L. *)
Theorem C59_base_group : forall s, length s = 32%nat ->
  ((exists p, FromBytesBaseGroup s = Some p) <-> exists P, s = encode P /\ smul L25519 P = pO /\ P <> pO) /\
  (forall p, FromBytesBaseGroup s = Some p -> exists P, ext_ok p P /\ s = encode P /\ smul L25519 P = pO /\ P <> pO).
Proof.
  intros s L.
  assert (K : forall p, FromBytesBaseGroup s = Some p -> exists P, ext_ok p P /\ s = encode P /\ smul L25519 P = pO /\ P <> pO).
  { intros p H. destruct (FromBytesBaseGroup_some s p L H) as (P & X & V & S & N). exists P. split; [exact X|].
    split; [exact (encode_unique s P L V)|]. split; [exact S|exact N]. }
  split; [|exact K]. split.
  - intros [p H]. destruct (K p H) as (P & _ & E). exists P. exact E.
  - intros (P & E & S & N). destruct (FromBytesBaseGroup_of s P L) as (p & H & _); [rewrite E; apply encode_value|exact S|exact N|]. exists p. exact H.
Qed.
(** [FromBytes] alone is not canonical: two strings can be read as one point. *)
Definition noncanonical : bytes := x01 :: repeat x00 30 ++ [Byte.x80].
Lemma py_one P : py P = F1 -> P = pO.
Proof.
  intro H. pose proof (onP P) as O. rewrite H in O. pose proof (onP pO) as O'. cbn [px py pO mkP] in O'.
  apply point_ext; cbn [px py pO mkP]; [|exact H]. destruct (same_y _ _ _ O' O) as [E|E]; rewrite E; ring.
Qed.
Theorem C59_from_bytes_canonical_refuted : ~ (forall s, length s = 32%nat -> fst (FromBytes FeZero s) = true -> ext_ToBytes (snd (FromBytes FeZero s)) = s).
Proof.
  intro H. specialize (H noncanonical eq_refl).
  destruct (C59_from_bytes FeZero noncanonical eq_refl) as [S D].
  assert (V : (le_value noncanonical mod 2 ^ 255 = 1)%Z) by (vm_compute; reflexivity). rewrite V in S, D.
  assert (A : fst (FromBytes FeZero noncanonical) = true). { apply S. exists pO. cbn [py pO mkP]. apply F1_def. }
  specialize (H A). destruct (D A) as (P & X & Y & _). rewrite <- F1_def in Y. apply py_one in Y. subst P.
  apply ext_bytes in X. rewrite H in X. apply (f_equal le_value) in X. rewrite encode_value, enc_O in X. vm_compute in X. discriminate X.
Qed.

(** ** C60 *)
Theorem C60_scalar_mult : forall a A P, length a = 32%nat -> ext_ok A P -> ext_ok (GeScalarMult a A) (smul (le_value a) P).
Proof. exact GeScalarMult_ok. Qed.
Theorem C60_scalar_mult_base : forall a, length a = 32%nat -> (le_value a < 2 ^ 255)%Z -> ext_ok (GeScalarMultBase a) (smul (le_value a) pB).
Proof. exact GeScalarMultBase_ok. Qed.
Theorem C60_double_scalar_mult : forall a A P b, length a = 32%nat -> length b = 32%nat ->
  (le_value a < 2 ^ 255 + 15)%Z -> (le_value b < 2 ^ 255 + 15)%Z -> ext_ok A P ->
  proj_ok (GeDoubleScalarMultVartime a A b) (padd (smul (le_value a) P) (smul (le_value b) pB)).
Proof. exact DSM_ok. Qed.
(** The precomputed tables: row i holds the points j * 256^i * B for j = 1..8,
    and [bi] the odd multiples B, 3B, ..., 15B. *)
Theorem C60_tables : length base = 32%nat /\ length bi = 8%nat /\
  (forall i, (i < 32)%nat -> length (nth i base []) = 8%nat /\
     forall j, (j < 8)%nat -> pre_ok (nth j (nth i base []) pre_dummy) (smul ((Z.of_nat j + 1) * 256 ^ Z.of_nat i) pB)) /\
  (forall j, (j < 8)%nat -> pre_ok (nth j bi pre_dummy) (smul (1 + 2 * Z.of_nat j) pB)).
Proof. split; [exact base_length|]. split; [exact bi_length|]. split; [exact base_ok|exact bi_ok]. Qed.
(** The two-scalar multiplication documents no precondition on its scalars, but
    for scalars near 2^256 a carry is lost. *)
Definition all_ff : bytes := repeat Byte.xff 32.
Theorem C60_double_scalar_mult_all_refuted : ~ (forall a A P b, length a = 32%nat -> length b = 32%nat -> ext_ok A P ->
  proj_ok (GeDoubleScalarMultVartime a A b) (padd (smul (le_value a) P) (smul (le_value b) pB))).
Proof.
  intro H. specialize (H zero_bytes extendedBaseEl pB all_ff eq_refl eq_refl ext_base_ok).
  pose proof (DSM_digits zero_bytes extendedBaseEl pB all_ff ext_base_ok) as D.
  assert (E : encode (padd (smul (le_value zero_bytes) pB) (smul (le_value all_ff) pB)) = encode (padd (smul (dv (slide zero_bytes)) pB) (smul (dv (slide all_ff)) pB))).
  { transitivity (proj_ToBytes (GeDoubleScalarMultVartime zero_bytes extendedBaseEl all_ff)); [symmetry; exact (proj_bytes _ _ H)|exact (proj_bytes _ _ D)]. }
  clear H D. apply encode_inj in E. rewrite zero_slide, (proj2 zero_bytes_ok) in E. apply padd_cancel_l in E.
  assert (V : dv (slide all_ff) = (-1)%Z) by (vm_compute; reflexivity). assert (W : le_value all_ff = (2 ^ 256 - 1)%Z) by (vm_compute; reflexivity).
  rewrite V, W in E.
  assert (O : smul (2 ^ 256) pB = pO).
  { replace (2 ^ 256)%Z with ((2 ^ 256 - 1) - (-1))%Z by lia. rewrite smul_sub, E. apply padd_opp_r. }
  apply (sub_order pB _ B_order B_not_O) in O. apply Z.mod_divide in O; [|intro Q; vm_compute in Q; discriminate Q]. vm_compute in O. discriminate O.
Qed.

(** ** C61 *)
(** Elligator 2: for r the low 255 bits, v = -A/(1+2r^2), u = v if v^3+Av^2+v is
    a square and -v-A otherwise, y = (u-1)/(u+1) (0 if u = -1).  The code never
    panics: there is always a point with this y. *)
Theorem C61_hash_to_edwards : forall T0 h, length h = 32%nat ->
  exists p P, HashToEdwards T0 h = Some p /\ ext_ok p P /\
    (px P = F0 \/ Z.odd (F2Z (px P)) = Z.testbit (le_value h) 255) /\
    let r := Z2F (le_value h mod 2 ^ 255) in
    let A := Z2F 486662 in
    exists v u, v * (F1 + (F1 + F1) * (r * r)) = - A /\
      (((exists w, w * w = v * v * v + A * (v * v) + v) /\ u = v) \/ ((forall w, w * w <> v * v * v + A * (v * v) + v) /\ u = - v - A)) /\
      ((u <> - F1 /\ py P * (u + F1) = u - F1) \/ (u = - F1 /\ py P = F0)).
Proof.
  intros T0 h L. destruct (HashToEdwards_ok T0 h L) as (p & P & E & X & Y & Par). exists p, P. split; [exact E|]. split; [exact X|]. split; [exact Par|].
  cbv zeta. set (r := Z2F (le_value h mod 2 ^ 255)) in *. clearbody r. change (Z2F 486662) with FA. exists (ell_v r), (ell_u r).
  split. { unfold ell_v. field. apply ell_den. }
  split.
  - unfold ell_u. change (ell_v r * ell_v r * ell_v r + FA * (ell_v r * ell_v r) + ell_v r) with (mont (ell_v r)).
    destruct (F_dec (Fchi (mont (ell_v r))) (- F1)) as [C|C].
    + right. split; [|reflexivity]. intros w W. assert (K : Fchi (mont (ell_v r)) <> - F1) by (apply chi_square_iff; exists w; exact W). exact (K C).
    + left. split; [|reflexivity]. apply chi_square_iff. exact C.
  - set (u := ell_u r) in *. clearbody u. rewrite Y. unfold ell_y. destruct (F_dec u (- F1)) as [Q|Q].
    + right. split; [exact Q|]. rewrite Q. assert (Z0 : - F1 + F1 = F0) by ring. rewrite Z0, Finv_0. ring.
    + left. split; [exact Q|]. field. intro Z0. apply Q. apply Fsub_zero. transitivity (u + F1); [ring|exact Z0].
Qed.
(** The VRF's hash: eight times that point, so always in the prime-order group. *)
Theorem C61_hash_to_curve : forall (xof : bytes -> nat -> bytes), (forall m n, length (xof m n) = n) -> forall m,
  exists h E, hashToCurve xof m = Some h /\ ext_ok h (smul 8 E) /\ smul L25519 (smul 8 E) = pO /\
    (exists p, HashToEdwards FeZero (xof m 32%nat) = Some p /\ ext_ok p E).
Proof.
  intros xof XL m. destruct (HashToEdwards_ok FeZero (xof m 32%nat) (XL m 32%nat)) as (p & E & Hp & X & _).
  exists (GeDouble (GeDouble (GeDouble p))), E. split; [unfold hashToCurve; rewrite Hp; reflexivity|].
  split.
  - replace (smul 8 E) with (padd (padd (padd E E) (padd E E)) (padd (padd E E) (padd E E))); [now apply GeDouble_ok, GeDouble_ok, GeDouble_ok|].
    rewrite <- !smul_2, <- !smul_mul. reflexivity.
  - split; [rewrite <- smul_mul, Z.mul_comm; apply order_8L|]. exists p. split; [exact Hp|exact X].
Qed.

(** Instances: the base point and its double are represented and decoded; running
    the code gives equal bytes for 3B + 2B and B + 4B; strings that are no point, or
    no canonical encoding, are rejected. *)
Example C58_example : ext_ok extendedBaseEl pB /\ ext_ok (GeAdd extendedBaseEl extendedBaseEl) (padd pB pB) /\ padd pB pB <> pB /\ padd pB pB <> pO.
Proof.
  split; [exact ext_base_ok|]. split; [apply GeAdd_ok; exact ext_base_ok|].
  assert (N : padd pB pB <> pO).
  { intro H. rewrite <- smul_2 in H. apply (sub_order pB _ B_order B_not_O) in H. apply Z.divide_pos_le in H; [vm_compute in H; apply H; reflexivity|lia]. }
  split; [|exact N]. intro H. apply B_not_O. apply (padd_cancel_l pB). rewrite H. symmetry. apply padd_O_r.
Qed.
Definition enc_two : bytes := x02 :: repeat x00 31.
Example C59_example : (exists p, FromBytesBaseGroup (encode pB) = Some p) /\ (exists p, FromBytesBaseGroup (encode (padd pB pB)) = Some p) /\
  FromBytesBaseGroup (encode pO) = None /\ FromBytesBaseGroup noncanonical = None /\ FromBytesBaseGroup enc_two = None.
Proof.
  split; [apply (C59_base_group (encode pB) (encode_length pB)); exists pB; split; [reflexivity|]; split; [exact B_order|exact B_not_O]|].
  split.
  - apply (C59_base_group (encode (padd pB pB)) (encode_length _)). exists (padd pB pB). split; [reflexivity|]. split; [|exact (proj2 (proj2 (proj2 C58_example)))].
    rewrite <- smul_2. apply sub_smul, B_order.
  - assert (K : forall s, length s = 32%nat -> (forall P, P <> pO -> le_value s <> enc P) -> FromBytesBaseGroup s = None).
    { intros s L Q. destruct (FromBytesBaseGroup s) as [p|] eqn:E; [|reflexivity]. exfalso.
      destruct (proj2 (C59_base_group s L) p E) as (P & _ & H & _ & N). apply (Q P N). rewrite H. apply encode_value. }
    split; [apply K; [apply encode_length|]|split; (apply K; [reflexivity|])]; intros P N V.
    + rewrite encode_value in V. apply N. symmetry. now apply enc_inj.
    + assert (W : le_value noncanonical = (1 + 2 ^ 255)%Z) by (vm_compute; reflexivity). rewrite W in V. unfold enc in V.
      assert (Y : F2Z (py P) = 1%Z). { pose proof (F2Z_bound (py P)). destruct (parity (px P)); cbn [Z.b2z] in V; lia. }
      apply N, py_one. rewrite <- (Z2F_F2Z (py P)), Y. symmetry. apply F1_def.
    + assert (W : le_value enc_two = 2%Z) by (vm_compute; reflexivity). rewrite W in V. unfold enc in V.
      assert (Y : F2Z (py P) = 2%Z). { pose proof (F2Z_bound (py P)). destruct (parity (px P)); cbn [Z.b2z] in V; lia. }
      pose proof (onP P) as O. assert (Y2 : py P = F1 + F1) by (rewrite <- (Z2F_F2Z (py P)), Y; apply Z2F_two). rewrite Y2 in O. unfold oncurve in O.
      set (k := F1 + Fd * ((F1 + F1) * (F1 + F1))).
      assert (Sq : px P * k * (px P * k) = (F1 + F1 + F1) * k).
      { transitivity (k * (px P * px P * k)); [ring|]. replace (px P * px P * k) with (F1 + F1 + F1); [ring|]. unfold k.
        transitivity ((F1 + F1) * (F1 + F1) - px P * px P + px P * px P - F1); [ring|]. rewrite O. ring. }
      revert Sq. apply nonsquare. apply (twice_square_chi _ (Z2F 36871624837952130196108090895567312538009700460282960119815992182029098947230)).
      * rewrite F0_def, Z2F_eq. intro Q. revert Q. vm_compute. discriminate.
      * unfold k, Fd. rewrite <- Z2F_one, <- !Z2F_add, <- !Z2F_mul, <- !Z2F_add, <- !Z2F_mul. apply Z2F_eq. vm_compute. reflexivity.
Qed.
Definition small_scalar (k : Byte.byte) : bytes := k :: repeat x00 31.
Example C60_example :
  proj_ToBytes (GeDoubleScalarMultVartime (small_scalar x03) extendedBaseEl (small_scalar x02)) =
    ext_ToBytes (GeAdd extendedBaseEl (GeDouble (GeDouble extendedBaseEl))).
Proof.
  assert (V : le_value (small_scalar x03) = 3%Z /\ le_value (small_scalar x02) = 2%Z) by (vm_compute; split; reflexivity). destruct V as [V3 V2].
  assert (A : proj_ok (GeDoubleScalarMultVartime (small_scalar x03) extendedBaseEl (small_scalar x02)) (padd (smul 3 pB) (smul 2 pB))).
  { rewrite <- V3, <- V2. apply C60_double_scalar_mult; [reflexivity|reflexivity|rewrite V3; reflexivity|rewrite V2; reflexivity|exact ext_base_ok]. }
  assert (B : ext_ok (GeAdd extendedBaseEl (GeDouble (GeDouble extendedBaseEl))) (padd pB (padd (padd pB pB) (padd pB pB)))).
  { apply GeAdd_ok; [exact ext_base_ok|]. apply GeDouble_ok, GeDouble_ok. exact ext_base_ok. }
  rewrite (proj_bytes _ _ A), (ext_bytes _ _ B). apply f_equal. rewrite <- !smul_2, <- smul_mul. rewrite <- (smul_1 pB) at 3. rewrite <- !smul_add. reflexivity.
Qed.
(** no representative is mapped to the neutral point itself (its eightfold can be neutral, see C49) *)
Example C61_example : forall T0 h, length h = 32%nat -> exists p P, HashToEdwards T0 h = Some p /\ ext_ok p P /\ P <> pO.
Proof.
  intros T0 h L. destruct (HashToEdwards_ok T0 h L) as (p & P & Hp & X & Y & _). exists p, P. split; [exact Hp|]. split; [exact X|].
  intros ->. cbn [py pO mkP] in Y. symmetry in Y. revert Y. set (u := ell_u _). clearbody u. unfold ell_y. intro Y.
  destruct (F_dec (u + F1) F0) as [E|E]; [rewrite E, Finv_0 in Y; apply F1_neq_0; rewrite <- Y; ring|].
  apply F2_neq_0. assert (K : u - F1 = u + F1).
  { transitivity ((u + F1) * (Finv (u + F1) * (u - F1))); [|rewrite Y; ring]. rewrite <- (Fdiv_def F1 (u + F1)) || idtac. set (k := u + F1) in *. transitivity ((k / k) * (u - F1)); [|rewrite Fdiv_def; ring]. field. exact E. }
  transitivity ((u + F1) - (u - F1)); [ring|]. rewrite K. ring.
Qed.

Print Assumptions C58_addition_law.
Print Assumptions C58_group.
Print Assumptions C58_order.
Print Assumptions C58_add.
Print Assumptions C58_conversions.
Print Assumptions C58_denotes_one.
Print Assumptions C59_to_bytes.
Print Assumptions C59_from_bytes.
Print Assumptions C59_base_group.
Print Assumptions C59_from_bytes_canonical_refuted.
Print Assumptions C60_scalar_mult.
Print Assumptions C60_scalar_mult_base.
Print Assumptions C60_double_scalar_mult.
Print Assumptions C60_tables.
Print Assumptions C60_double_scalar_mult_all_refuted.
Print Assumptions C61_hash_to_edwards.
Print Assumptions C61_hash_to_curve.
