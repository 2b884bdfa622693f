(** The group operations of the code compute in the group of the curve. *)
From Coq Require Import List NArith ZArith Lia Bool Arith Znumtheory Field.
From Verif Require Import Base Extra25519 GoInt Field FieldSpec FieldFacts FieldBytes FieldPow EdConst Group NumTheory Fp EdGroup EdOrder Scalar.
Import ListNotations.
Local Open Scope F_scope.

(** ** Field elements as values with a limb bound *)
Definition fr (k : Z) (f : fe) (a : F) : Prop := fe_bound k f /\ fval f = a.
Lemma fval_eqp f z : eqp (fe_value f) z -> fval f = Z2F z.
Proof. intro H. unfold fval. now apply Z2F_eqp. Qed.
Lemma fr_mono j k f a : (j <= k)%Z -> fr j f a -> fr k f a.
Proof. intros L [B V]. split; [now apply (fe_bound_mono j)|exact V]. Qed.
Lemma fr_mul j k f g a b : fr j f a -> fr k g b -> (j <= 330)%Z -> (k <= 330)%Z -> fr 101 (FeMul f g) (a * b).
Proof.
  intros [Bf <-] [Bg <-] J K. destruct (FeMul_ok f g (fe_bound_mono _ _ _ J Bf) (fe_bound_mono _ _ _ K Bg)) as [B E].
  split; [exact B|]. rewrite (fval_eqp _ _ E). apply Z2F_mul.
Qed.
Lemma fr_square j f a : fr j f a -> (j <= 330)%Z -> fr 101 (FeSquare f) (a * a).
Proof.
  intros [Bf <-] J. destruct (FeSquare_ok f (fe_bound_mono _ _ _ J Bf)) as [B E].
  split; [exact B|]. rewrite (fval_eqp _ _ E). apply Z2F_mul.
Qed.
Lemma Z2F_2 : Z2F 2 = F1 + F1.
Proof. rewrite F1_def, <- Z2F_add. reflexivity. Qed.
Lemma fr_square2 j f a : fr j f a -> (j <= 330)%Z -> fr 101 (FeSquare2 f) ((F1 + F1) * (a * a)).
Proof.
  intros [Bf <-] J. destruct (FeSquare2_ok f (fe_bound_mono _ _ _ J Bf)) as [B E].
  split; [exact B|]. rewrite (fval_eqp _ _ E), !Z2F_mul, Z2F_2. reflexivity.
Qed.
Lemma fe_bound_nonneg k f : fe_bound k f -> (0 <= k)%Z.
Proof. intros [_ B]. specialize (B 0%nat ltac:(lia)). cbn [Nat.even] in B. pose proof (Z.abs_nonneg (nth 0 f 0%Z)). lia. Qed.
Lemma fr_add j k f g a b : fr j f a -> fr k g b -> (j + k <= 6000)%Z -> fr (j + k) (FeAdd f g) (a + b).
Proof.
  intros [Bf <-] [Bg <-] L. destruct (FeAdd_ok j k f g (fe_bound_nonneg _ _ Bf) (fe_bound_nonneg _ _ Bg) L Bf Bg) as [B E].
  split; [exact B|]. unfold fval. rewrite E. apply Z2F_add.
Qed.
Lemma fr_sub j k f g a b : fr j f a -> fr k g b -> (j + k <= 6000)%Z -> fr (j + k) (FeSub f g) (a - b).
Proof.
  intros [Bf <-] [Bg <-] L. destruct (FeSub_ok j k f g (fe_bound_nonneg _ _ Bf) (fe_bound_nonneg _ _ Bg) L Bf Bg) as [B E].
  split; [exact B|]. unfold fval. rewrite E. apply Z2F_sub.
Qed.
Lemma fr_neg k f a : fr k f a -> (k <= 6000)%Z -> fr k (FeNeg f) (- a).
Proof.
  intros [Bf <-] L. destruct (FeNeg_ok k f (conj (fe_bound_nonneg _ _ Bf) L) Bf) as [B E].
  split; [exact B|]. unfold fval. rewrite E. apply Z2F_opp.
Qed.
Lemma fr_zero k : (0 <= k)%Z -> fr k FeZero F0.
Proof. intro K. destruct fe_zero_ok as [B V]. split; [now apply (fe_bound_mono 0)|]. unfold fval. now rewrite V, F0_def. Qed.
Lemma fr_one k : (1 <= k)%Z -> fr k FeOne F1.
Proof. intro K. destruct fe_one_ok as [B V]. split; [now apply (fe_bound_mono 1)|]. unfold fval. now rewrite V, F1_def. Qed.
Lemma fr_pow (j : Z) f g n : (0 <= n)%Z -> power f g n -> fr 101 g (Fpow (fval f) n).
Proof. intros N [B E]. split; [exact B|]. rewrite (fval_eqp _ _ E). unfold fval. now rewrite Z2F_pow. Qed.
Lemma fr_invert j f a : fr j f a -> (j <= 330)%Z -> fr 101 (FeInvert f) (Finv a).
Proof.
  intros [Bf <-] J. rewrite Finv_def. apply (fr_pow j).
  - pose proof (prime_ge_2 _ p_prime). lia.
  - apply FeInvert_ok. now apply (fe_bound_mono j).
Qed.
Lemma fr_pow22523 j f a : fr j f a -> (j <= 330)%Z -> fr 101 (fePow22523 f) (Fpow a ((p25519 - 5) / 8)).
Proof.
  intros [Bf <-] J. apply (fr_pow j); [vm_compute; discriminate|]. apply fePow22523_ok. now apply (fe_bound_mono j).
Qed.
Lemma fr_chi j f a : fr j f a -> (j <= 330)%Z -> fr 101 (chi f) (Fchi a).
Proof.
  intros [Bf <-] J. apply (fr_pow j); [vm_compute; discriminate|]. apply chi_ok. now apply (fe_bound_mono j).
Qed.
Lemma fr_length k f a : fr k f a -> length f = 10%nat.
Proof. now intros [[L _] _]. Qed.
Lemma fval_mod f : F2Z (fval f) = (fe_value f mod p25519)%Z.
Proof. unfold fval. apply F2Z_Z2F. Qed.
Lemma fr_tobytes j f a : fr j f a -> (j <= 330)%Z ->
  length (fst (FeToBytes f)) = 32%nat /\ le_value (fst (FeToBytes f)) = F2Z a /\ fr 200 (snd (FeToBytes f)) a.
Proof.
  intros [Bf <-] J. destruct (FeToBytes_ok f (fe_bound_mono _ _ _ J Bf)) as (L & V & B & V').
  split; [exact L|]. split; [now rewrite V, fval_mod|]. split; [exact B|].
  unfold fval. rewrite V'. apply Z2F_mod.
Qed.
Lemma fr_isneg j f a : fr j f a -> (j <= 330)%Z ->
  fst (FeIsNegative f) = Z.b2z (parity a) /\ fr 200 (snd (FeIsNegative f)) a.
Proof.
  intros [Bf <-] J. destruct (FeIsNegative_ok f (fe_bound_mono _ _ _ J Bf)) as (L & B & V').
  split; [|split; [exact B|]].
  - rewrite L. unfold parity. rewrite fval_mod. apply Zmod_odd.
  - unfold fval. rewrite V'. apply Z2F_mod.
Qed.
Lemma fr_isnonzero j f a : fr j f a -> (j <= 330)%Z -> fst (FeIsNonZero f) = if F_dec a F0 then 0%Z else 1%Z.
Proof.
  intros [Bf <-] J. destruct (FeIsNonZero_ok f (fe_bound_mono _ _ _ J Bf)) as (L & B & V').
  rewrite L. destruct (F_dec (fval f) F0) as [E|E].
  - unfold fval in E. apply Z2F_zero in E. now rewrite E.
  - destruct (Z.eqb_spec (fe_value f mod p25519) 0) as [K|K]; [|reflexivity]. destruct E. unfold fval. now apply Z2F_zero.
Qed.
Lemma fr_frombytes b : length b = 32%nat -> fr 101 (FeFromBytes b) (Z2F (le_value b mod 2 ^ 255)).
Proof. intro L. destruct (FeFromBytes_ok b L) as [B E]. split; [exact B|]. now apply fval_eqp. Qed.

(** Constants *)
Definition fe_boundb (k : Z) (f : fe) : bool :=
  Nat.eqb (length f) 10 && forallb (fun i => Z.leb (100 * Z.abs (nth i f 0)) (k * (if Nat.even i then 2 ^ 25 else 2 ^ 24)))%Z (seq 0 10).
Lemma fe_boundb_ok k f : fe_boundb k f = true -> fe_bound k f.
Proof.
  unfold fe_boundb. rewrite andb_true_iff, Nat.eqb_eq, forallb_forall. intros [L H]. split; [exact L|].
  intros i Hi. apply Z.leb_le. apply H. apply in_seq. lia.
Qed.
Lemma fr_const k f z : fe_boundb k f = true -> ((fe_value f - z) mod p25519 = 0)%Z -> fr k f (Z2F z).
Proof.
  intros B E. split; [now apply fe_boundb_ok|]. unfold fval. apply Z2F_eqp. unfold eqp.
  apply Z.mod_divide; [pose proof p_pos; lia|exact E].
Qed.
Lemma fr_d : fr 101 c_d Fd.
Proof. apply fr_const; vm_compute; reflexivity. Qed.
Lemma fr_d2 : fr 101 c_d2 ((F1 + F1) * Fd).
Proof. unfold Fd. rewrite F1_def, <- Z2F_add, <- Z2F_mul. apply fr_const; vm_compute; reflexivity. Qed.
Lemma fr_SqrtM1 : fr 101 c_SqrtM1 Fi.
Proof. apply fr_const; vm_compute; reflexivity. Qed.

(** ** Representations of points *)
Definition proj_ok (p : projective) (P : point) : Prop :=
  exists z, z <> F0 /\ fr 200 (prX p) (px P * z) /\ fr 101 (prY p) (py P * z) /\ fr 101 (prZ p) z.
Definition ext_ok (p : extended) (P : point) : Prop :=
  exists z, z <> F0 /\ fr 200 (eX p) (px P * z) /\ fr 101 (eY p) (py P * z) /\ fr 101 (eZ p) z /\ fr 101 (eT p) (px P * py P * z).
Definition comp_ok (p : completed) (P : point) : Prop :=
  exists z t, z <> F0 /\ t <> F0 /\ fr 303 (cX p) (px P * z) /\ fr 303 (cY p) (py P * t) /\ fr 303 (cZ p) z /\ fr 303 (cT p) t.
Definition pre_ok (p : precomputed) (P : point) : Prop :=
  fr 101 (yPlusX p) (py P + px P) /\ fr 101 (yMinusX p) (py P - px P) /\ fr 101 (xy2d p) ((F1 + F1) * Fd * px P * py P).
Definition cached_ok (p : cached) (P : point) : Prop :=
  exists z, z <> F0 /\ fr 301 (caYPlusX p) ((py P + px P) * z) /\ fr 301 (caYMinusX p) ((py P - px P) * z) /\
  fr 101 (caZ p) z /\ fr 101 (caT2d p) ((F1 + F1) * Fd * px P * py P * z).

Lemma fr_eq k f a b : a = b -> fr k f a -> fr k f b. Proof. now intros ->. Qed.
Ltac frm H := eapply fr_eq; [|eapply fr_mono; [|exact H]]; [try ring|lia].

Ltac fz := pose proof (fr_zero 1 ltac:(lia)) as fz0; pose proof (fr_one 1 ltac:(lia)) as fz1.
Lemma proj_zero_ok : proj_ok proj_Zero pO.
Proof.
  fz. exists F1. cbn [px py pO mkP proj_Zero prX prY prZ]. split; [exact F1_neq_0|].
  split; [frm fz0|]. split; [frm fz1|]. frm fz1.
Qed.
Lemma ext_zero_ok : ext_ok ext_Zero pO.
Proof.
  fz. exists F1. cbn [px py pO mkP ext_Zero eX eY eZ eT]. split; [exact F1_neq_0|].
  split; [frm fz0|]. split; [frm fz1|]. split; [frm fz1|]. frm fz0.
Qed.
Lemma pre_zero_ok : pre_ok pre_Zero pO.
Proof.
  fz. unfold pre_ok, pre_Zero. cbn [px py pO mkP yPlusX yMinusX xy2d]. split; [frm fz1|]. split; [frm fz1|]. frm fz0.
Qed.

Lemma ext_to_proj p P : ext_ok p P -> proj_ok (ext_ToProjective p) P.
Proof. intros (z & N & X & Y & Z & T). exists z. cbn [ext_ToProjective prX prY prZ]. auto. Qed.
Lemma comp_to_proj p P : comp_ok p P -> proj_ok (comp_ToProjective p) P.
Proof.
  intros (z & t & Nz & Nt & X & Y & Z & T). exists (z * t). cbn [comp_ToProjective prX prY prZ].
  pose proof (fr_mul _ _ _ _ _ _ X T ltac:(lia) ltac:(lia)) as A.
  pose proof (fr_mul _ _ _ _ _ _ Y Z ltac:(lia) ltac:(lia)) as B.
  pose proof (fr_mul _ _ _ _ _ _ Z T ltac:(lia) ltac:(lia)) as C.
  split; [now apply Fmul_nonzero|]. split; [frm A|]. split; [frm B|]. frm C.
Qed.
Lemma comp_to_ext p P : comp_ok p P -> ext_ok (comp_ToExtended p) P.
Proof.
  intros (z & t & Nz & Nt & X & Y & Z & T). exists (z * t). cbn [comp_ToExtended eX eY eZ eT].
  pose proof (fr_mul _ _ _ _ _ _ X T ltac:(lia) ltac:(lia)) as A.
  pose proof (fr_mul _ _ _ _ _ _ Y Z ltac:(lia) ltac:(lia)) as B.
  pose proof (fr_mul _ _ _ _ _ _ Z T ltac:(lia) ltac:(lia)) as C.
  pose proof (fr_mul _ _ _ _ _ _ X Y ltac:(lia) ltac:(lia)) as D.
  split; [now apply Fmul_nonzero|]. split; [frm A|]. split; [frm B|]. split; [frm C|]. frm D.
Qed.
Lemma ext_to_cached p P : ext_ok p P -> cached_ok (ext_ToCached p) P.
Proof.
  intros (z & N & X & Y & Z & T). exists z. unfold ext_ToCached. cbn [caYPlusX caYMinusX caZ caT2d].
  pose proof (fr_add _ _ _ _ _ _ Y X ltac:(lia)) as A.
  pose proof (fr_sub _ _ _ _ _ _ Y X ltac:(lia)) as B.
  pose proof (fr_mul _ _ _ _ _ _ T fr_d2 ltac:(lia) ltac:(lia)) as C.
  split; [exact N|]. split; [frm A|]. split; [frm B|]. split; [exact Z|]. frm C.
Qed.

(** Doubling *)
Lemma proj_double_ok p P : proj_ok p P -> comp_ok (proj_Double p) (padd P P).
Proof.
  intros (z & N & X & Y & Z). unfold proj_Double. cbv zeta.
  pose proof (fr_square _ _ _ X ltac:(lia)) as rX.
  pose proof (fr_square _ _ _ Y ltac:(lia)) as rZ.
  pose proof (fr_square2 _ _ _ Z ltac:(lia)) as rT.
  pose proof (fr_add _ _ _ _ _ _ X Y ltac:(lia)) as rY.
  pose proof (fr_square _ _ _ rY ltac:(lia)) as t0.
  pose proof (fr_add _ _ _ _ _ _ rZ rX ltac:(lia)) as rY'.
  pose proof (fr_sub _ _ _ _ _ _ rZ rX ltac:(lia)) as rZ'.
  pose proof (fr_sub _ _ _ _ _ _ t0 rY' ltac:(lia)) as rX'.
  pose proof (fr_sub _ _ _ _ _ _ rT rZ' ltac:(lia)) as rT'.
  pose proof (onP P) as H. pose proof (den_plus _ _ _ _ H H) as DP. pose proof (den_minus _ _ _ _ H H) as DM.
  set (x := px P) in *. set (y := py P) in *. unfold oncurve in H.
  assert (E1 : y * y - x * x = F1 + Fd * x * x * y * y) by (rewrite H; ring).
  assert (E2 : F1 + F1 - (y * y - x * x) = F1 - Fd * x * x * y * y) by (rewrite E1; ring).
  exists (z * z * (y * y - x * x)), (z * z * (F1 + F1 - (y * y - x * x))).
  split; [rewrite E1; repeat apply Fmul_nonzero; assumption|].
  split; [rewrite E2; repeat apply Fmul_nonzero; assumption|].
  cbn [cX cY cZ cT px py padd mkP]. fold x y. unfold addx, addy. rewrite <- E1, <- E2.
  rewrite <- E1 in DP. rewrite <- E2 in DM.
  set (u := y * y - x * x) in *. set (w := F1 + F1 - u) in *.
  split; [|split; [|split]].
  - eapply fr_eq; [|eapply fr_mono; [|exact rX']]; [|lia]. transitivity ((x * y + y * x) * (z * z)); [ring|field; exact DP].
  - eapply fr_eq; [|eapply fr_mono; [|exact rY']]; [|lia]. transitivity ((y * y + x * x) * (z * z)); [ring|field; exact DM].
  - eapply fr_eq; [|eapply fr_mono; [|exact rZ']]; [|lia]. unfold u. ring.
  - eapply fr_eq; [|eapply fr_mono; [|exact rT']]; [|lia]. unfold w, u. ring.
Qed.
Lemma ext_double_ok p P : ext_ok p P -> comp_ok (ext_Double p) (padd P P).
Proof. intro H. apply proj_double_ok. now apply ext_to_proj. Qed.
Lemma GeDouble_ok p P : ext_ok p P -> ext_ok (GeDouble p) (padd P P).
Proof. intro H. apply comp_to_ext. now apply ext_double_ok. Qed.

(** Addition: the common part *)
Lemma add_core P Q z w X Y Z T : z <> F0 -> w <> F0 -> fr 303 X ((F1 + F1) * (px P * py Q + py P * px Q) * (z * w)) ->
  fr 303 Y ((F1 + F1) * (py P * py Q + px P * px Q) * (z * w)) ->
  fr 303 Z ((F1 + F1) * (F1 + Fd * px P * px Q * py P * py Q) * (z * w)) ->
  fr 303 T ((F1 + F1) * (F1 - Fd * px P * px Q * py P * py Q) * (z * w)) ->
  comp_ok (mkComp X Y Z T) (padd P Q).
Proof.
  intros Nz Nw HX HY HZ HT.
  pose proof (den_plus _ _ _ _ (onP P) (onP Q)) as DP. pose proof (den_minus _ _ _ _ (onP P) (onP Q)) as DM.
  pose proof F2_neq_0 as N2.
  exists ((F1 + F1) * (F1 + Fd * px P * px Q * py P * py Q) * (z * w)), ((F1 + F1) * (F1 - Fd * px P * px Q * py P * py Q) * (z * w)).
  split; [repeat apply Fmul_nonzero; assumption|]. split; [repeat apply Fmul_nonzero; assumption|].
  cbn [cX cY cZ cT px py padd mkP]. unfold addx, addy. split; [|split; [|split]]; try assumption.
  - eapply fr_eq; [|exact HX]. set (u := F1 + Fd * px P * px Q * py P * py Q) in *. field. exact DP.
  - eapply fr_eq; [|exact HY]. set (u := F1 - Fd * px P * px Q * py P * py Q) in *. field. exact DM.
Qed.
Lemma geAdd_ok p q P Q : ext_ok p P -> cached_ok q Q -> comp_ok (geAdd p q) (padd P Q).
Proof.
  intros (z & Nz & X & Y & Z & T) (w & Nw & A & B & C & D). unfold geAdd. cbv zeta.
  pose proof (fr_add _ _ _ _ _ _ Y X ltac:(lia)) as rX.
  pose proof (fr_sub _ _ _ _ _ _ Y X ltac:(lia)) as rY.
  pose proof (fr_mul _ _ _ _ _ _ rX A ltac:(lia) ltac:(lia)) as rZ.
  pose proof (fr_mul _ _ _ _ _ _ rY B ltac:(lia) ltac:(lia)) as rY'.
  pose proof (fr_mul _ _ _ _ _ _ D T ltac:(lia) ltac:(lia)) as rT.
  pose proof (fr_mul _ _ _ _ _ _ Z C ltac:(lia) ltac:(lia)) as rX'.
  pose proof (fr_add _ _ _ _ _ _ rX' rX' ltac:(lia)) as t0.
  apply (add_core P Q z w); [exact Nz|exact Nw| | | |].
  - pose proof (fr_sub _ _ _ _ _ _ rZ rY' ltac:(lia)) as R. frm R.
  - pose proof (fr_add _ _ _ _ _ _ rZ rY' ltac:(lia)) as R. frm R.
  - pose proof (fr_add _ _ _ _ _ _ t0 rT ltac:(lia)) as R. frm R.
  - pose proof (fr_sub _ _ _ _ _ _ t0 rT ltac:(lia)) as R. frm R.
Qed.
Lemma geSub_ok p q P Q : ext_ok p P -> cached_ok q Q -> comp_ok (geSub p q) (padd P (popp Q)).
Proof.
  intros (z & Nz & X & Y & Z & T) (w & Nw & A & B & C & D). unfold geSub. cbv zeta.
  pose proof (fr_add _ _ _ _ _ _ Y X ltac:(lia)) as rX.
  pose proof (fr_sub _ _ _ _ _ _ Y X ltac:(lia)) as rY.
  pose proof (fr_mul _ _ _ _ _ _ rX B ltac:(lia) ltac:(lia)) as rZ.
  pose proof (fr_mul _ _ _ _ _ _ rY A ltac:(lia) ltac:(lia)) as rY'.
  pose proof (fr_mul _ _ _ _ _ _ D T ltac:(lia) ltac:(lia)) as rT.
  pose proof (fr_mul _ _ _ _ _ _ Z C ltac:(lia) ltac:(lia)) as rX'.
  pose proof (fr_add _ _ _ _ _ _ rX' rX' ltac:(lia)) as t0.
  apply (add_core P (popp Q) z w); [exact Nz|exact Nw| | | |]; cbn [px py popp mkP].
  - pose proof (fr_sub _ _ _ _ _ _ rZ rY' ltac:(lia)) as R. frm R.
  - pose proof (fr_add _ _ _ _ _ _ rZ rY' ltac:(lia)) as R. frm R.
  - pose proof (fr_sub _ _ _ _ _ _ t0 rT ltac:(lia)) as R. frm R.
  - pose proof (fr_add _ _ _ _ _ _ t0 rT ltac:(lia)) as R. frm R.
Qed.
Lemma geMixedAdd_ok p q P Q : ext_ok p P -> pre_ok q Q -> comp_ok (geMixedAdd p q) (padd P Q).
Proof.
  intros (z & Nz & X & Y & Z & T) (A & B & D). unfold geMixedAdd. cbv zeta.
  pose proof (fr_add _ _ _ _ _ _ Y X ltac:(lia)) as rX.
  pose proof (fr_sub _ _ _ _ _ _ Y X ltac:(lia)) as rY.
  pose proof (fr_mul _ _ _ _ _ _ rX A ltac:(lia) ltac:(lia)) as rZ.
  pose proof (fr_mul _ _ _ _ _ _ rY B ltac:(lia) ltac:(lia)) as rY'.
  pose proof (fr_mul _ _ _ _ _ _ D T ltac:(lia) ltac:(lia)) as rT.
  pose proof (fr_add _ _ _ _ _ _ Z Z ltac:(lia)) as t0.
  apply (add_core P Q z F1); [exact Nz|exact F1_neq_0| | | |].
  - pose proof (fr_sub _ _ _ _ _ _ rZ rY' ltac:(lia)) as R. frm R.
  - pose proof (fr_add _ _ _ _ _ _ rZ rY' ltac:(lia)) as R. frm R.
  - pose proof (fr_add _ _ _ _ _ _ t0 rT ltac:(lia)) as R. frm R.
  - pose proof (fr_sub _ _ _ _ _ _ t0 rT ltac:(lia)) as R. frm R.
Qed.
Lemma geMixedSub_ok p q P Q : ext_ok p P -> pre_ok q Q -> comp_ok (geMixedSub p q) (padd P (popp Q)).
Proof.
  intros (z & Nz & X & Y & Z & T) (A & B & D). unfold geMixedSub. cbv zeta.
  pose proof (fr_add _ _ _ _ _ _ Y X ltac:(lia)) as rX.
  pose proof (fr_sub _ _ _ _ _ _ Y X ltac:(lia)) as rY.
  pose proof (fr_mul _ _ _ _ _ _ rX B ltac:(lia) ltac:(lia)) as rZ.
  pose proof (fr_mul _ _ _ _ _ _ rY A ltac:(lia) ltac:(lia)) as rY'.
  pose proof (fr_mul _ _ _ _ _ _ D T ltac:(lia) ltac:(lia)) as rT.
  pose proof (fr_add _ _ _ _ _ _ Z Z ltac:(lia)) as t0.
  apply (add_core P (popp Q) z F1); [exact Nz|exact F1_neq_0| | | |]; cbn [px py popp mkP].
  - pose proof (fr_sub _ _ _ _ _ _ rZ rY' ltac:(lia)) as R. frm R.
  - pose proof (fr_add _ _ _ _ _ _ rZ rY' ltac:(lia)) as R. frm R.
  - pose proof (fr_sub _ _ _ _ _ _ t0 rT ltac:(lia)) as R. frm R.
  - pose proof (fr_add _ _ _ _ _ _ t0 rT ltac:(lia)) as R. frm R.
Qed.
Lemma GeAdd_ok a b P Q : ext_ok a P -> ext_ok b Q -> ext_ok (GeAdd a b) (padd P Q).
Proof. intros A B. apply comp_to_ext. apply geAdd_ok; [exact A|]. now apply ext_to_cached. Qed.
