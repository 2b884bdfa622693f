(** Encoding and decoding of points. *)
From Coq Require Import List NArith ZArith Lia Bool Arith Znumtheory Field.
From Verif Require Import Base Extra25519 GoInt Field FieldSpec FieldFacts FieldBytes FieldPow EdConst Group NumTheory Fp EdGroup EdOrder Scalar GroupFacts.
Import ListNotations.
Local Open Scope F_scope.

(** The number a point is encoded as: the second coordinate, and the parity of
    the first one as bit 255. *)
Definition enc (P : point) : Z := (F2Z (py P) + 2 ^ 255 * Z.b2z (parity (px P)))%Z.
Lemma F2Z_bound a : (0 <= F2Z a < 2 ^ 255 - 19)%Z.
Proof. pose proof (F2Z_range a) as H. rewrite p_val in H. exact H. Qed.
Lemma enc_range P : (0 <= enc P < 2 ^ 256)%Z.
Proof. unfold enc. pose proof (F2Z_bound (py P)). destruct (parity (px P)); cbn [Z.b2z]; lia. Qed.
Lemma F2Z_inj a b : F2Z a = F2Z b -> a = b. Proof. apply F_ext. Qed.
Lemma enc_inj P Q : enc P = enc Q -> P = Q.
Proof.
  unfold enc. intro H. pose proof (F2Z_bound (py P)). pose proof (F2Z_bound (py Q)).
  assert (E : parity (px P) = parity (px Q)) by (destruct (parity (px P)), (parity (px Q)); cbn [Z.b2z] in H; (reflexivity || lia)).
  apply point_parity_inj; [|exact E]. apply F2Z_inj. rewrite E in H. lia.
Qed.
Lemma enc_O : enc pO = 1%Z.
Proof. unfold enc. cbn [px py pO mkP]. unfold parity. rewrite F0_def, F1_def, !F2Z_Z2F. vm_compute. reflexivity. Qed.

(** ** Writing *)
Lemma le_value_app a b : le_value (a ++ b) = (le_value a + 256 ^ Z.of_nat (length a) * le_value b)%Z.
Proof.
  induction a as [|x a IH]; [cbn [le_value app length]; change (256 ^ Z.of_nat 0)%Z with 1%Z; lia|].
  cbn [le_value app length]. rewrite IH, Nat2Z.inj_succ, Z.pow_succ_r by lia. lia.
Qed.
Lemma split31 s : length s = 32%nat -> s = firstn 31 s ++ [nth 31 s x00].
Proof.
  intro L. rewrite <- (firstn_skipn 31 s) at 1. f_equal.
  do 32 (destruct s as [|? s]; [discriminate L|]). destruct s; [reflexivity|discriminate L].
Qed.
Lemma value31 s : length s = 32%nat -> le_value s = (le_value (firstn 31 s) + 2 ^ 248 * byteZ (nth 31 s x00))%Z /\ (0 <= le_value (firstn 31 s) < 2 ^ 248)%Z.
Proof.
  intro L. assert (L' : length (firstn 31 s) = 31%nat) by (rewrite firstn_length; lia). split.
  - rewrite (split31 s L) at 1. rewrite le_value_app, L'. cbn [le_value]. change (256 ^ Z.of_nat 31)%Z with (2 ^ 248)%Z. lia.
  - pose proof (le_value_bound (firstn 31 s)) as B. rewrite L' in B. exact B.
Qed.
Lemma xor_top_ok s b : length s = 32%nat -> (le_value s < 2 ^ 255)%Z ->
  length (xor_top s (Z.b2z b)) = 32%nat /\ le_value (xor_top s (Z.b2z b)) = (le_value s + 2 ^ 255 * Z.b2z b)%Z.
Proof.
  intros L V. destruct (value31 s L) as [E R]. unfold xor_top.
  assert (L' : length (firstn 31 s) = 31%nat) by (rewrite firstn_length; lia).
  split; [rewrite app_length, L'; reflexivity|].
  rewrite le_value_app, L'. cbn [le_value]. rewrite byteZ_toByte. change (256 ^ Z.of_nat 31)%Z with (2 ^ 248)%Z.
  set (t := byteZ (nth 31 s x00)) in *. pose proof (byteZ_bound (nth 31 s x00)) as B. fold t in B.
  assert (T : (0 <= t < 128)%Z) by lia.
  assert (K : Z.lxor t (wrap U8 (Z.shiftl (Z.b2z b) 7)) = (t + 128 * Z.b2z b)%Z).
  { destruct b; cbn [Z.b2z].
    - change (wrap U8 (Z.shiftl 1 7)) with 128%Z. rewrite <- Z.add_nocarry_lxor; [lia|].
      apply Z.bits_inj'. intros n Hn. rewrite Z.land_spec, Z.bits_0.
      destruct (Z.eq_dec n 7) as [->|N].
      + assert (TB : Z.testbit t 7 = false) by (apply Z.testbit_false; [lia|]; rewrite Z.div_small by lia; reflexivity).
        rewrite TB. reflexivity.
      + change 128%Z with (2 ^ 7)%Z. rewrite Z.pow2_bits_false by lia. apply andb_false_r.
    - change (wrap U8 (Z.shiftl 0 7)) with 0%Z. rewrite Z.lxor_0_r. lia. }
  rewrite K. rewrite Z.mod_small by (destruct b; cbn [Z.b2z]; lia). lia.
Qed.
Lemma to_bytes_ok X Y Z P z : z <> F0 -> fr 200 X (px P * z) -> fr 101 Y (py P * z) -> fr 101 Z z ->
  length (to_bytes X Y Z) = 32%nat /\ le_value (to_bytes X Y Z) = enc P.
Proof.
  intros N HX HY HZ. unfold to_bytes. cbv zeta.
  pose proof (fr_invert _ _ _ HZ ltac:(lia)) as R.
  pose proof (fr_mul _ _ _ _ _ _ HX R ltac:(lia) ltac:(lia)) as X'.
  pose proof (fr_mul _ _ _ _ _ _ HY R ltac:(lia) ltac:(lia)) as Y'.
  apply (fr_eq _ _ _ (px P)) in X'; [|field; exact N]. apply (fr_eq _ _ _ (py P)) in Y'; [|field; exact N].
  destruct (fr_tobytes _ _ _ Y' ltac:(lia)) as (L & V & _). destruct (fr_isneg _ _ _ X' ltac:(lia)) as (S & _).
  rewrite S. destruct (xor_top_ok _ (parity (px P)) L) as [A B].
  - rewrite V. pose proof (F2Z_bound (py P)). lia.
  - split; [exact A|]. rewrite B, V. reflexivity.
Qed.
Lemma ext_ToBytes_ok p P : ext_ok p P -> length (ext_ToBytes p) = 32%nat /\ le_value (ext_ToBytes p) = enc P.
Proof. intros (z & N & X & Y & Z & T). exact (to_bytes_ok _ _ _ P z N X Y Z). Qed.
Lemma proj_ToBytes_ok p P : proj_ok p P -> length (proj_ToBytes p) = 32%nat /\ le_value (proj_ToBytes p) = enc P.
Proof. intros (z & N & X & Y & Z). exact (to_bytes_ok _ _ _ P z N X Y Z). Qed.

(** ** Reading *)
Lemma Fpow_plus a m n : (0 <= m)%Z -> (0 <= n)%Z -> Fpow a m * Fpow a n = Fpow a (m + n).
Proof. intros. symmetry. now apply Fpow_add. Qed.
Lemma Fchi_one_or a : a <> F0 -> Fchi a = F1 \/ Fchi a = - F1. Proof. apply Fchi_values. Qed.
Lemma quarter : (1 + (p25519 - 5) / 8 + (p25519 - 5) / 8 = (p25519 - 1) / 4 /\ 0 <= (p25519 - 5) / 8 /\ 0 <= (p25519 - 1) / 4 /\ (p25519 - 1) / 4 + (p25519 - 1) / 4 = (p25519 - 1) / 2)%Z.
Proof. vm_compute. repeat split; discriminate. Qed.
(** x0 = u v^3 (u v^7)^((p-5)/8) satisfies v x0^2 = u w^((p-1)/4), w = u v^7 *)
Definition w7 (u v : F) : F := u * (v * v * v * v * v * v * v).
Definition root0 (u v : F) : F := Fpow (w7 u v) ((p25519 - 5) / 8) * (v * v * v) * u.
Lemma root0_square u v : v * (root0 u v * root0 u v) = u * Fpow (w7 u v) ((p25519 - 1) / 4).
Proof.
  destruct quarter as (Q & A & B & C). set (w := w7 u v). unfold root0. fold w.
  rewrite <- Q, <- !Fpow_plus, Fpow_1 by lia. set (q := Fpow w ((p25519 - 5) / 8)). unfold w, w7. ring.
Qed.
Lemma root0_cases u v : v <> F0 ->
  (v * (root0 u v * root0 u v) = u) \/ (v * (root0 u v * root0 u v) = - u) \/
  (v * (root0 u v * root0 u v) <> u /\ v * (root0 u v * root0 u v) <> - u /\ forall x, v * (x * x) <> u).
Proof.
  intro V. rewrite root0_square. destruct (F_dec u F0) as [->|U]; [left; ring|].
  assert (W : w7 u v <> F0) by (unfold w7; repeat apply Fmul_nonzero; assumption).
  destruct quarter as (_ & _ & B & C).
  set (o := Fpow (w7 u v) ((p25519 - 1) / 4)).
  assert (O : o * o = Fchi (w7 u v)) by (unfold o, Fchi; rewrite Fpow_plus by lia; now rewrite C).
  destruct (Fchi_values _ W) as [E|E]; rewrite E in O.
  - apply Fsquare_one in O. destruct O as [->| ->]; [left; ring|right; left; ring].
  - right. right. split; [|split].
    + intro H. assert (o = F1) as ->. { apply (Fmul_cancel_r _ _ u U). rewrite <- H at 2. ring. }
      apply Fopp1_neq_1. rewrite <- O. ring.
    + intro H. assert (o = - F1) as ->. { apply (Fmul_cancel_r _ _ u U). transitivity (- u); [rewrite <- H|]; ring. }
      apply Fopp1_neq_1. rewrite <- O. ring.
    + intros x H. assert (X : w7 u v = (x * (v * v * v * v)) * (x * (v * v * v * v))) by (unfold w7; rewrite <- H; ring).
      rewrite X in E. rewrite Fchi_square in E; [now apply Fopp1_neq_1|].
      intro Z. apply W. rewrite X, Z. ring.
Qed.
Lemma oncurve_uv x y : oncurve x y <-> (Fd * (y * y) + F1) * (x * x) = y * y - F1.
Proof.
  unfold oncurve. split; intro H.
  - transitivity ((F1 + Fd * (x * x) * (y * y)) - F1 + x * x); [ring|]. rewrite <- H. ring.
  - apply Fsub_zero. transitivity ((y * y - F1) - (Fd * (y * y) + F1) * (x * x)); [ring|]. rewrite H. ring.
Qed.
Lemma b2z_eqb a b : Z.eqb (Z.b2z a) (Z.b2z b) = Bool.eqb a b. Proof. destruct a, b; reflexivity. Qed.
Lemma FromParityAndY_ok T0 bit y a : fr 101 y a ->
  let r := FromParityAndY T0 (Z.b2z bit) y in
  (fst r = true /\ exists P, ext_ok (snd r) P /\ py P = a /\ (px P = F0 \/ parity (px P) = bit)) \/
  (fst r = false /\ forall x, ~ oncurve x a).
Proof.
  intro HY. unfold FromParityAndY. cbv zeta.
  pose proof (fr_one 1 ltac:(lia)) as One.
  pose proof (fr_square _ _ _ HY ltac:(lia)) as U0. set (fu0 := FeSquare y) in *. clearbody fu0.
  pose proof (fr_mul _ _ _ _ _ _ U0 fr_d ltac:(lia) ltac:(lia)) as V0. set (fv0 := FeMul fu0 c_d) in *. clearbody fv0.
  pose proof (fr_sub _ _ _ _ _ _ U0 One ltac:(lia)) as U. set (fu := FeSub fu0 FeOne) in *. clearbody fu.
  pose proof (fr_add _ _ _ _ _ _ V0 One ltac:(lia)) as V. set (fv := FeAdd fv0 FeOne) in *. clearbody fv.
  set (u := a * a - F1) in *. assert (Ev : a * a * Fd + F1 = Fd * (a * a) + F1) by ring. apply (fr_eq _ _ _ _ Ev) in V. clear Ev.
  set (v := Fd * (a * a) + F1) in *.
  pose proof (fr_square _ _ _ V ltac:(lia)) as W0. set (w0 := FeSquare fv) in *. clearbody w0.
  pose proof (fr_mul _ _ _ _ _ _ W0 V ltac:(lia) ltac:(lia)) as V3. set (fv3 := FeMul w0 fv) in *. clearbody fv3.
  pose proof (fr_square _ _ _ V3 ltac:(lia)) as X0. set (f0 := FeSquare fv3) in *. clearbody f0.
  pose proof (fr_mul _ _ _ _ _ _ X0 V ltac:(lia) ltac:(lia)) as X1. set (f1 := FeMul f0 fv) in *. clearbody f1.
  pose proof (fr_mul _ _ _ _ _ _ X1 U ltac:(lia) ltac:(lia)) as X2. set (f2 := FeMul f1 fu) in *. clearbody f2.
  pose proof (fr_pow22523 _ _ _ X2 ltac:(lia)) as X3. set (f3 := fePow22523 f2) in *. clearbody f3.
  pose proof (fr_mul _ _ _ _ _ _ X3 V3 ltac:(lia) ltac:(lia)) as X4. set (f4 := FeMul f3 fv3) in *. clearbody f4.
  pose proof (fr_mul _ _ _ _ _ _ X4 U ltac:(lia) ltac:(lia)) as X5. set (f5 := FeMul f4 fu) in *. clearbody f5.
  assert (E7 : v * v * v * (v * v * v) * v * u = w7 u v) by (unfold w7; ring).
  rewrite E7 in X5. change (Fpow (w7 u v) ((p25519 - 5) / 8) * (v * v * v) * u) with (root0 u v) in X5.
  set (x := root0 u v) in *.
  pose proof (fr_square _ _ _ X5 ltac:(lia)) as XX. set (fxx := FeSquare f5) in *. clearbody fxx.
  pose proof (fr_mul _ _ _ _ _ _ XX V ltac:(lia) ltac:(lia)) as VXX. set (fvxx := FeMul fxx fv) in *. clearbody fvxx.
  assert (Ex : x * x * v = v * (x * x)) by ring. apply (fr_eq _ _ _ _ Ex) in VXX. clear Ex.
  assert (NV : v <> F0). { unfold v. intro H. apply (den_y a). rewrite <- H. ring. }
  clear W0 w0 V0 fv0 U0 fu0 X0 X1 X2 X3 X4 f0 f1 f2 f3 f4 XX fxx E7.
  (** the common end *)
  assert (Fin : forall f b, (b <= 200)%Z -> forall x', fr b f x' -> v * (x' * x') = u ->
    exists P, ext_ok (mkExt (if Z.eqb (fst (FeIsNegative f)) (Z.b2z bit) then snd (FeIsNegative f) else FeNeg (snd (FeIsNegative f))) y FeOne
      (FeMul (if Z.eqb (fst (FeIsNegative f)) (Z.b2z bit) then snd (FeIsNegative f) else FeNeg (snd (FeIsNegative f))) y)) P /\ py P = a /\ (px P = F0 \/ parity (px P) = bit)).
  { intros f b Hb x' Hf Hx. destruct (fr_isneg _ _ _ Hf ltac:(lia)) as [S N]. rewrite S, b2z_eqb.
    assert (On : oncurve x' a) by (apply oncurve_uv; exact Hx).
    assert (M : exists x'' (H : oncurve x'' a), fr 200 (if eqb (parity x') bit then snd (FeIsNegative f) else FeNeg (snd (FeIsNegative f))) x'' /\ (x'' = F0 \/ parity x'' = bit)).
    { destruct (eqb (parity x') bit) eqn:Eb.
      - exists x', On. split; [exact N|]. right. now apply eqb_prop.
      - exists (- x'), (opp_on _ _ On). split; [apply fr_neg; [exact N|lia]|].
        destruct (F_dec x' F0) as [->|N0]; [left; ring|right]. rewrite parity_opp by exact N0.
        clear -Eb. destruct (parity x'), bit; (reflexivity || discriminate Eb). }
    destruct M as (x'' & H & Fx & Pr). exists (mkP x'' a H). cbn [px py mkP]. split; [|split; [reflexivity|exact Pr]].
    exists F1. cbn [px py mkP eX eY eZ eT]. split; [exact F1_neq_0|].
    pose proof (fr_mul _ _ _ _ _ _ Fx HY ltac:(lia) ltac:(lia)) as T.
    split; [frm Fx|]. split; [frm HY|]. split; [frm One|]. frm T. }
  pose proof (fr_sub _ _ _ _ _ _ VXX U ltac:(lia)) as C1. pose proof (fr_add _ _ _ _ _ _ VXX U ltac:(lia)) as C2.
  rewrite (fr_isnonzero _ _ _ C1 ltac:(lia)), (fr_isnonzero _ _ _ C2 ltac:(lia)).
  pose proof (root0_cases u v NV) as RC. fold x in RC. destruct RC as [R|[R|(R1 & R2 & R3)]].
  - destruct (F_dec (v * (x * x) - u) F0) as [D|D]; [|destruct D; exact (proj2 (Fsub_zero _ _) R)].
    cbn [Z.eqb]. destruct (FeIsNegative f5) as [ng f6] eqn:E6.
    left. split; [reflexivity|]. specialize (Fin f5 101%Z ltac:(lia) x X5 R). rewrite E6 in Fin. exact Fin.
  - destruct (F_dec (v * (x * x) - u) F0) as [D|D].
    + cbn [Z.eqb]. destruct (FeIsNegative f5) as [ng f6] eqn:E6.
      left. split; [reflexivity|]. apply (proj1 (Fsub_zero _ _)) in D. specialize (Fin f5 101%Z ltac:(lia) x X5 D). rewrite E6 in Fin. exact Fin.
    + destruct (F_dec (v * (x * x) + u) F0) as [D2|D2]; [|destruct D2; rewrite R; ring].
      cbn [Z.eqb Pos.eqb].
      pose proof (fr_mul _ _ _ _ _ _ X5 fr_SqrtM1 ltac:(lia) ltac:(lia)) as X6.
      destruct (fr_tobytes _ _ _ X6 ltac:(lia)) as (_ & _ & X7). set (f6 := snd (FeToBytes (FeMul f5 c_SqrtM1))) in *. clearbody f6.
      destruct (FeIsNegative f6) as [ng f7] eqn:E6.
      left. split; [reflexivity|]. assert (Q : v * (x * Fi * (x * Fi)) = u).
      { transitivity (Fi * Fi * (v * (x * x))); [ring|]. rewrite Fi_square, R. ring. }
      specialize (Fin f6 200%Z ltac:(lia) _ X7 Q). rewrite E6 in Fin. exact Fin.
  - destruct (F_dec (v * (x * x) - u) F0) as [D|D]; [destruct R1; exact (proj1 (Fsub_zero _ _) D)|].
    destruct (F_dec (v * (x * x) + u) F0) as [D2|D2].
    + destruct R2. transitivity (v * (x * x) + u - u); [ring|]. rewrite D2. ring.
    + cbn [Z.eqb Pos.eqb]. right. split; [reflexivity|]. intros x' On. apply oncurve_uv in On. exact (R3 x' On).
Qed.

(** The point a byte string denotes *)
Definition denotes (s : bytes) (P : point) : Prop :=
  py P = Z2F (le_value s mod 2 ^ 255) /\ (px P = F0 \/ parity (px P) = Z.testbit (le_value s) 255).
Lemma top_bit s : length s = 32%nat -> Z.shiftr (byteZ (nth 31 s x00)) 7 = Z.b2z (Z.testbit (le_value s) 255).
Proof.
  intro L. destruct (value31 s L) as [E R]. rewrite Z.testbit_spec' by lia.
  set (t := byteZ (nth 31 s x00)) in *. pose proof (byteZ_bound (nth 31 s x00)) as B. fold t in B.
  rewrite Z.shiftr_div_pow2 by lia. rewrite E. change (2 ^ 255)%Z with (2 ^ 248 * 2 ^ 7)%Z. rewrite <- Z.div_div by lia.
  rewrite Z.add_comm, Z.mul_comm, Z.div_add_l by lia. rewrite (Z.div_small (le_value _)) by lia. rewrite Z.add_0_r.
  symmetry. apply Z.mod_small. split; [apply Z.div_pos; lia|apply Z.div_lt_upper_bound; lia].
Qed.
Lemma FromBytes_ok T0 s : length s = 32%nat ->
  let r := FromBytes T0 s in
  (fst r = true /\ exists P, ext_ok (snd r) P /\ denotes s P) \/
  (fst r = false /\ forall P, py P <> Z2F (le_value s mod 2 ^ 255)).
Proof.
  intro L. unfold FromBytes. rewrite (top_bit s L).
  destruct (FromParityAndY_ok T0 (Z.testbit (le_value s) 255) _ _ (fr_frombytes s L)) as [[A (P & E & Y & X)]|[A N]].
  - left. split; [exact A|]. exists P. split; [exact E|]. now split.
  - right. split; [exact A|]. intros P H. apply (N (px P)). rewrite <- H. apply onP.
Qed.
(** An encoded point decodes to itself *)
Lemma enc_denotes s P Q : le_value s = enc P -> denotes s Q -> P = Q.
Proof.
  unfold denotes, enc. intros E [Y X]. pose proof (F2Z_bound (py P)) as B.
  assert (M : (le_value s mod 2 ^ 255 = F2Z (py P))%Z).
  { rewrite E. rewrite Z.mul_comm, Z_mod_plus_full. apply Z.mod_small. lia. }
  rewrite M, Z2F_F2Z in Y.
  assert (T : Z.testbit (le_value s) 255 = parity (px P)).
  { rewrite E. apply Z.b2z_inj. rewrite Z.testbit_spec' by lia. rewrite Z.mul_comm, Z.div_add, Z.div_small by lia.
    destruct (parity (px P)); reflexivity. }
  rewrite T in X. destruct X as [X|X]; [|apply point_parity_inj; congruence].
  pose proof (onP P) as A. pose proof (onP Q) as A'. rewrite Y in A'. rewrite X in A'.
  apply point_ext; [|congruence]. destruct (same_y _ _ _ A' A) as [H|H]; rewrite H, X; ring.
Qed.
Lemma enc_decodes T0 s P : length s = 32%nat -> le_value s = enc P -> fst (FromBytes T0 s) = true /\ ext_ok (snd (FromBytes T0 s)) P.
Proof.
  intros L E. destruct (FromBytes_ok T0 s L) as [[A (Q & X & D)]|[A N]].
  - split; [exact A|]. rewrite (enc_denotes s P Q E D). exact X.
  - exfalso. apply (N P). rewrite E. unfold enc. rewrite Z.mul_comm, Z_mod_plus_full, Z.mod_small.
    + now rewrite Z2F_F2Z.
    + pose proof (F2Z_bound (py P)). lia.
Qed.
Lemma proj_ToExtended_ok T0 p P : proj_ok p P -> ext_ok (proj_ToExtended T0 p) P.
Proof. intro H. destruct (proj_ToBytes_ok p P H) as [L E]. unfold proj_ToExtended. exact (proj2 (enc_decodes T0 _ P L E)). Qed.
