(** Scalar multiplication: the bits of a scalar, double-and-add, and the signed
    sliding windows. *)
From Coq Require Import List NArith ZArith Lia Bool Arith Znumtheory.
From Verif Require Import Base Extra25519 GoInt Field FieldSpec FieldFacts FieldBytes EdConst Group NumTheory Fp EdGroup EdOrder Scalar GroupFacts EncFacts.
Import ListNotations.
Local Open Scope Z_scope.

(** ** Bits *)
Lemma nth_byte a : forall k, byteZ (nth k a x00) = (le_value a / 256 ^ Z.of_nat k) mod 256.
Proof.
  induction a as [|x a IH]; intro k.
  - rewrite nth_nil || destruct k; cbn [nth le_value]; rewrite Z.div_0_l by (apply Z.pow_nonzero; lia); reflexivity.
  - pose proof (byteZ_bound x) as B. destruct k as [|k]; cbn [nth le_value].
    + change (256 ^ Z.of_nat 0) with 1. rewrite Z.div_1_r. rewrite Z.mul_comm, Z_mod_plus_full. symmetry. apply Z.mod_small. lia.
    + rewrite IH, Nat2Z.inj_succ, Z.pow_succ_r by lia. f_equal.
      rewrite <- Z.div_div by (try apply Z.pow_pos_nonneg; lia). f_equal.
      rewrite Z.mul_comm, Z.div_add by lia. rewrite Z.div_small by lia. lia.
Qed.
Lemma scalarBit_testbit a i : scalarBit a i = Z.b2z (Z.testbit (le_value a) (Z.of_nat i)).
Proof.
  unfold scalarBit. rewrite nth_byte. change 1 with (Z.ones 1). rewrite Z.land_ones by lia.
  rewrite Z.shiftr_div_pow2 by lia. change (2 ^ 1) with 2. rewrite <- Z.testbit_spec' by lia. f_equal.
  change 256 with (2 ^ 8). rewrite <- Z.pow_mul_r by lia.
  pose proof (Nat.mod_upper_bound i 8 ltac:(lia)) as M.
  rewrite Z.mod_pow2_bits_low by lia. rewrite Z.div_pow2_bits by lia. f_equal.
  pose proof (Nat.div_mod i 8 ltac:(lia)). lia.
Qed.
Lemma mod_succ_pow v n : 0 <= n -> v mod 2 ^ (n + 1) = v mod 2 ^ n + 2 ^ n * Z.b2z (Z.testbit v n).
Proof.
  intro N. rewrite Z.testbit_spec' by exact N. rewrite Z.pow_add_r by lia. change (2 ^ 1) with 2.
  rewrite Z.rem_mul_r by (try apply Z.pow_nonzero; lia). reflexivity.
Qed.

(** ** [GeScalarMult] *)
Lemma ext_CMove_ok t u b P Q : ext_ok t P -> ext_ok u Q ->
  ext_ok (ext_CMove t u (Z.b2z b)) (if b then Q else P).
Proof.
  intros T U. pose proof T as (z & N & A1 & A2 & A3 & A4). pose proof U as (z' & N' & B1 & B2 & B3 & B4).
  unfold ext_CMove. rewrite !FeCMove_ok by (try (eapply fr_length; eassumption); destruct b; cbn [Z.b2z]; lia).
  destruct b; cbn [Z.b2z Z.eqb Pos.eqb]; [destruct u|destruct t]; assumption.
Qed.
Lemma GeScalarMult_fold a A P n : ext_ok A P ->
  let r := fold_left (GeScalarMult_round a) (seq 0 n) (A, ext_Zero) in
  ext_ok (fst r) (smul (2 ^ Z.of_nat n) P) /\ ext_ok (snd r) (smul (le_value a mod 2 ^ Z.of_nat n) P).
Proof.
  intro H. induction n as [|n IH].
  - cbn [seq fold_left fst snd]. change (2 ^ Z.of_nat 0) with 1. rewrite Z.mod_1_r, smul_1, smul_0. split; [exact H|apply ext_zero_ok].
  - rewrite seq_S, fold_left_app. cbn [plus]. cbv zeta in *. set (r := fold_left _ _ _) in *. clearbody r. destruct r as [p q].
    cbn [fst snd] in IH. destruct IH as [Hp Hq]. cbn [fold_left]. unfold GeScalarMult_round. cbv zeta. cbn [fst snd].
    rewrite Nat2Z.inj_succ. unfold Z.succ. split.
    + rewrite Z.pow_add_r by lia. change (2 ^ 1) with (1 + 1). rewrite Z.mul_add_distr_l, Z.mul_1_r, smul_add. now apply GeDouble_ok.
    + rewrite scalarBit_testbit, mod_succ_pow by lia.
      pose proof (ext_CMove_ok _ _ (Z.testbit (le_value a) (Z.of_nat n)) _ _ Hq (GeAdd_ok _ _ _ _ Hq Hp)) as R.
      destruct (Z.testbit (le_value a) (Z.of_nat n)); cbn [Z.b2z] in *.
      * rewrite Z.mul_1_r, smul_add. exact R.
      * rewrite Z.mul_0_r, Z.add_0_r. exact R.
Qed.
Lemma GeScalarMult_ok a A P : length a = 32%nat -> ext_ok A P -> ext_ok (GeScalarMult a A) (smul (le_value a) P).
Proof.
  intros L H. destruct (GeScalarMult_fold a A P 256 H) as [_ R]. cbv zeta in R. unfold GeScalarMult.
  rewrite Z.mod_small in R; [exact R|]. pose proof (le_value_bound a) as B. rewrite L in B. exact B.
Qed.

(** ** Sliding windows *)
Fixpoint dv (r : list Z) : Z := match r with [] => 0 | x :: r' => x + 2 * dv r' end.
Definition binary (r : list Z) : Prop := Forall (fun x => x = 0 \/ x = 1) r.
Lemma dv_app a b : dv (a ++ b) = dv a + 2 ^ Z.of_nat (length a) * dv b.
Proof.
  induction a as [|x a IH]; [cbn [dv app length]; change (2 ^ Z.of_nat 0) with 1; lia|].
  cbn [dv app length]. rewrite IH, Nat2Z.inj_succ, Z.pow_succ_r by lia. lia.
Qed.
Lemma dv_binary r : binary r -> 0 <= dv r < 2 ^ Z.of_nat (length r).
Proof.
  induction 1 as [|x r H _ IH]; [cbn; lia|]. cbn [dv length]. rewrite Nat2Z.inj_succ, Z.pow_succ_r by lia. lia.
Qed.
Lemma slide_carry_length r : length (slide_carry r) = length r.
Proof. induction r as [|x r IH]; [reflexivity|]. cbn [slide_carry]. destruct (Z.eqb x 0); cbn [length]; lia. Qed.
Lemma slide_carry_binary r : binary r -> binary (slide_carry r).
Proof.
  induction 1 as [|x r H R IH]; [constructor|]. cbn [slide_carry]. destruct (Z.eqb x 0); constructor; auto.
Qed.
(** the carry is lost exactly when all digits are one *)
Lemma slide_carry_dv r : binary r -> dv r + 1 < 2 ^ Z.of_nat (length r) -> dv (slide_carry r) = dv r + 1.
Proof.
  induction 1 as [|x r H R IH]; [cbn; lia|]. intro B. cbn [slide_carry].
  destruct (Z.eqb_spec x 0) as [->|N]; cbn [dv]; [lia|]. cbn [dv length] in B. rewrite Nat2Z.inj_succ, Z.pow_succ_r in B by lia.
  rewrite IH by lia. lia.
Qed.
Definition digit (x : Z) : Prop := x = 0 \/ (Z.odd x = true /\ -15 <= x <= 15).
Lemma update_split {A} b (v : A) l : (b < length l)%nat -> update b v l = firstn b l ++ v :: skipn (S b) l.
Proof.
  revert b. induction l as [|x l IH]; intros b H; [cbn in H; lia|]. destruct b as [|b]; [reflexivity|].
  cbn [update firstn skipn app]. f_equal. apply IH. cbn in H. lia.
Qed.
Lemma split_nth b (l : list Z) : (b < length l)%nat -> l = firstn b l ++ nth b l 0 :: skipn (S b) l.
Proof.
  revert b. induction l as [|x l IH]; intros b H; [cbn in H; lia|]. destruct b as [|b]; [reflexivity|].
  cbn [nth firstn skipn app]. f_equal. apply IH. cbn in H. lia.
Qed.
Lemma wrapI8_small z : -128 <= z < 128 -> wrapI8 z = z.
Proof. intro H. unfold wrapI8. rewrite Z.mod_small by lia. lia. Qed.
Lemma odd_pow b : (1 <= b)%nat -> exists k, 2 ^ Z.of_nat b = 2 * k.
Proof. intro H. exists (2 ^ (Z.of_nat b - 1)). rewrite <- Z.pow_succ_r by lia. f_equal. lia. Qed.
Lemma odd_plus_pow x b : (1 <= b)%nat -> Z.odd x = true -> Z.odd (x + 2 ^ Z.of_nat b) = true /\ Z.odd (x - 2 ^ Z.of_nat b) = true.
Proof.
  intros B H. destruct (odd_pow b B) as [k ->]. replace (x - 2 * k) with (x + 2 * - k) by lia.
  rewrite !Z.odd_add_mul_2. now split.
Qed.
Lemma pow_small b : (1 <= b <= 6)%nat -> 2 <= 2 ^ Z.of_nat b <= 64.
Proof. intro H. split; [change 2 with (2 ^ 1) at 1|change 64 with (2 ^ 6)]; apply Z.pow_le_mono_r; lia. Qed.
(** 2^6 as an int8 is 64; in range *)
Lemma slide_inner_ok n : forall b x rest, binary rest -> Z.odd x = true -> -15 <= x <= 15 -> (1 <= b)%nat -> (n + b <= 7)%nat ->
  dv (firstn (b - 1) rest) = 0 ->
  let r := slide_inner n b x rest in
  binary (snd r) /\ length (snd r) = length rest /\ Z.odd (fst r) = true /\ -15 <= fst r <= 15 /\
  (x + 2 * dv rest + 15 < 2 ^ Z.of_nat (S (length rest)) -> fst r + 2 * dv (snd r) = x + 2 * dv rest).
Proof.
  induction n as [|n IH]; intros b x rest Hb Ox Rx Bb Bn Z0; cbv zeta; cbn [slide_inner].
  - cbn [fst snd]. repeat split; try assumption; lia.
  - destruct (Nat.leb_spec b (length rest)) as [Lb|Lb]; [|cbn [fst snd]; repeat split; try assumption; lia].
    assert (Hlt : (b - 1 < length rest)%nat) by lia.
    pose proof (split_nth (b - 1) rest Hlt) as Sp. set (y := nth (b - 1) rest 0) in *.
    assert (Lf : length (firstn (b - 1) rest) = (b - 1)%nat) by (rewrite firstn_length; lia).
    assert (Fb : binary (firstn (b - 1) rest) /\ (y = 0 \/ y = 1) /\ binary (skipn (S (b - 1)) rest)).
    { rewrite Sp in Hb. apply Forall_app in Hb. destruct Hb as [H1 H2]. inversion H2; subst. auto. }
    destruct Fb as (F1 & F2 & F3).
    assert (Dr : dv rest = 2 ^ Z.of_nat (b - 1) * (y + 2 * dv (skipn (S (b - 1)) rest))).
    { rewrite Sp at 1. rewrite dv_app, Lf, Z0. cbn [dv]. lia. }
    assert (Nx : forall r0 : list Z, (length r0 = length rest) -> firstn (b - 1) r0 = firstn (b - 1) rest -> nth (b - 1) r0 0 = 0 -> dv (firstn (S b - 1) r0) = 0).
    { intros r0 L0 E0 N0. replace (S b - 1)%nat with (S (b - 1)) by lia.
      rewrite (split_nth (b - 1) r0) by lia. rewrite E0, N0, firstn_app, Lf.
      rewrite firstn_all2 by lia. replace (S (b - 1) - (b - 1))%nat with 1%nat by lia. cbn [firstn].
      rewrite dv_app, Z0. cbn [dv]. lia. }
    destruct (Z.eqb_spec y 0) as [Y|Y].
    + apply IH; try assumption; try lia. apply Nx; auto.
    + destruct F2 as [F2|F2]; [contradiction|]. rewrite F2. rewrite Z.shiftl_1_l.
      pose proof (pow_small b ltac:(lia)) as P64. rewrite (wrapI8_small (2 ^ Z.of_nat b)) by lia.
      rewrite (wrapI8_small (x + _)), (wrapI8_small (x - _)) by lia.
      destruct (odd_plus_pow x b Bb Ox) as [O1 O2].
      assert (Pb : 2 ^ Z.of_nat b = 2 * 2 ^ Z.of_nat (b - 1)) by (rewrite <- Z.pow_succ_r by lia; f_equal; lia).
      destruct (Z.leb_spec (x + 2 ^ Z.of_nat b) 15) as [C|C].
      * rewrite update_split by lia. set (rest' := firstn (b - 1) rest ++ 0 :: skipn (S (b - 1)) rest).
        assert (L' : length rest' = length rest) by (unfold rest'; rewrite Sp at 3; rewrite !app_length; reflexivity).
        assert (D' : 2 ^ Z.of_nat b + 2 * dv rest' = 2 * dv rest).
        { rewrite Dr, F2. unfold rest'. rewrite dv_app, Lf, Z0. cbn [dv]. lia. }
        destruct (IH (S b) (x + 2 ^ Z.of_nat b) rest') as (A1 & A2 & A3 & A4 & A5); try assumption; try lia.
        -- apply Forall_app. split; [exact F1|]. constructor; [now left|exact F3].
        -- apply Nx; [exact L'| |].
           ++ unfold rest'. rewrite firstn_app, Lf, Nat.sub_diag. cbn [firstn]. rewrite app_nil_r. apply firstn_all2. lia.
           ++ unfold rest'. rewrite app_nth2 by lia. rewrite Lf, Nat.sub_diag. reflexivity.
        -- rewrite L' in *. repeat split; try assumption; try lia.
      * destruct (Z.leb_spec (-15) (x - 2 ^ Z.of_nat b)) as [C'|C']; [|cbn [fst snd]; repeat split; try assumption; lia].
        assert (Sk : skipn (b - 1) rest = 1 :: skipn (S (b - 1)) rest).
        { rewrite Sp at 1. rewrite skipn_app, Lf, Nat.sub_diag. rewrite skipn_all2 by lia. cbn [app skipn]. now rewrite F2. }
        set (rest' := firstn (b - 1) rest ++ slide_carry (skipn (b - 1) rest)).
        assert (L' : length rest' = length rest).
        { unfold rest'. rewrite app_length, slide_carry_length, <- app_length, firstn_skipn. reflexivity. }
        assert (B' : binary rest').
        { apply Forall_app. split; [exact F1|]. apply slide_carry_binary. rewrite Sk. constructor; [now right|exact F3]. }
        assert (D' : x + 2 * dv rest + 15 < 2 ^ Z.of_nat (S (length rest)) -> - 2 ^ Z.of_nat b + 2 * dv rest' = 2 * dv rest).
        { intro Lim. unfold rest'. rewrite dv_app, Lf, Z0. rewrite slide_carry_dv.
          - rewrite Dr, Sk, F2. cbn [dv]. lia.
          - rewrite Sk. constructor; [now right|exact F3].
          - rewrite Sk. cbn [dv]. rewrite F2 in Dr. set (q := 1 + 2 * dv (skipn (S (b - 1)) rest)) in *.
            change (length (1 :: skipn (S (b - 1)) rest)) with (S (length (skipn (S (b - 1)) rest))).
            rewrite skipn_length. replace (S (length rest - S (b - 1))) with (length rest - (b - 1))%nat by lia.
            assert (E : 2 ^ Z.of_nat (S (length rest)) = 2 ^ Z.of_nat b * 2 ^ Z.of_nat (length rest - (b - 1))).
            { rewrite <- Z.pow_add_r by lia. f_equal. lia. }
            rewrite E, Dr in Lim. assert (2 ^ Z.of_nat b * (q + 1) < 2 ^ Z.of_nat b * 2 ^ Z.of_nat (length rest - (b - 1))) by lia.
            apply Z.mul_lt_mono_pos_l in H; lia. }
        destruct (IH (S b) (x - 2 ^ Z.of_nat b) rest') as (A1 & A2 & A3 & A4 & A5); try assumption; try lia.
        -- apply Nx; [exact L'| |].
           ++ unfold rest'. rewrite firstn_app, Lf, Nat.sub_diag. cbn [firstn]. rewrite app_nil_r. apply firstn_all2. lia.
           ++ unfold rest'. rewrite app_nth2 by lia. rewrite Lf, Nat.sub_diag, Sk. reflexivity.
        -- rewrite L' in *. repeat split; try assumption; try lia.
Qed.

(** One step of the outer loop never breaks a digit, whatever the array. *)
Lemma slide_loop_digits n : forall r, binary r -> length r = n -> Forall digit (slide_loop n r) /\ length (slide_loop n r) = n.
Proof.
  induction n as [|n IH]; intros r B L; destruct r as [|x rest]; try discriminate L; cbn [slide_loop]; [now split|].
  injection L as L. inversion B as [|? ? Hx Hr]; subst. destruct (Z.eqb_spec x 0) as [->|N].
  - destruct (IH rest Hr eq_refl) as [D E]. split; [constructor; [now left|exact D]|]. cbn [length]. now rewrite E.
  - destruct Hx as [Hx|Hx]; [contradiction|]. subst x.
    destruct (slide_inner_ok 6 1 1 rest Hr eq_refl ltac:(lia) ltac:(lia) ltac:(lia) eq_refl) as (A1 & A2 & A3 & A4 & _).
    cbv zeta in *. destruct (slide_inner 6 1 1 rest) as [x' rest']. cbn [fst snd] in *.
    destruct (IH rest' A1 A2) as [D E]. split; [constructor; [right; auto|exact D]|]. cbn [length]. now rewrite E.
Qed.
(** Nine digits, by computation over all the values *)
Fixpoint bits (n : nat) (v : Z) : list Z := match n with O => [] | S n' => (v mod 2) :: bits n' (v / 2) end.
Lemma bits_dv r : binary r -> bits (length r) (dv r) = r.
Proof.
  induction 1 as [|x r H R IH]; [reflexivity|]. cbn [length bits dv].
  replace ((x + 2 * dv r) mod 2) with x by (rewrite Z.mul_comm, Z_mod_plus_full, Z.mod_small; lia).
  replace ((x + 2 * dv r) / 2) with (dv r) by (rewrite Z.mul_comm, Z.div_add, Z.div_small; lia). now rewrite IH.
Qed.
Lemma slide_nine : forallb (fun k => Z.eqb (dv (slide_loop 9 (bits 9 (Z.of_nat k)))) (Z.of_nat k)) (seq 0 271) = true.
Proof. vm_compute. reflexivity. Qed.
Lemma slide_loop_value n : (9 <= n)%nat -> forall r, binary r -> length r = n -> dv r < 2 ^ (Z.of_nat n - 1) + 15 -> dv (slide_loop n r) = dv r.
Proof.
  induction 1 as [|n Hn IH]; intros r B L V.
  - pose proof slide_nine as K. rewrite forallb_forall in K.
    pose proof (dv_binary r B) as [P _]. specialize (K (Z.to_nat (dv r))). rewrite Z2Nat.id in K by exact P.
    pose proof (bits_dv r B) as E. rewrite L in E. rewrite E in K. apply Z.eqb_eq, K, in_seq.
    change (2 ^ (Z.of_nat 9 - 1) + 15) with 271 in V. lia.
  - destruct r as [|x rest]; [discriminate L|]. injection L as L. inversion B as [|? ? Hx Hr]; subst x0 l. cbn [slide_loop].
    assert (Pw : 2 ^ (Z.of_nat (S n) - 1) = 2 * 2 ^ (Z.of_nat n - 1)) by (rewrite <- Z.pow_succ_r by lia; f_equal; lia).
    assert (P9 : 2 ^ 8 <= 2 ^ (Z.of_nat n - 1)) by (apply Z.pow_le_mono_r; lia). change (2 ^ 8) with 256 in P9.
    rewrite Pw in V. cbn [dv] in V.
    destruct (Z.eqb_spec x 0) as [->|N].
    + cbn [dv]. rewrite (IH rest Hr L) by lia. reflexivity.
    + destruct Hx as [Hx|Hx]; [contradiction|]. subst x.
      destruct (slide_inner_ok 6 1 1 rest Hr eq_refl ltac:(lia) ltac:(lia) ltac:(lia) eq_refl) as (A1 & A2 & A3 & A4 & A5).
      cbv zeta in *. destruct (slide_inner 6 1 1 rest) as [x' rest']. cbn [fst snd] in *. cbn [dv].
      rewrite L in A5. rewrite (Nat2Z.inj_succ n) in A5.
      assert (Pn : 2 ^ Z.succ (Z.of_nat n) = 4 * 2 ^ (Z.of_nat n - 1)).
      { change 4 with (2 ^ 2). rewrite <- Z.pow_add_r by lia. f_equal. lia. }
      rewrite Pn in A5. specialize (A5 ltac:(lia)).
      rewrite (IH rest' A1 ltac:(lia)) by lia. exact A5.
Qed.
Lemma scalar_bits_binary a : binary (map (scalarBit a) (seq 0 256)).
Proof. apply Forall_forall. intros x H. apply in_map_iff in H. destruct H as (i & <- & _). rewrite scalarBit_testbit. destruct (Z.testbit _ _); auto. Qed.
Lemma scalar_bits_dv a n : dv (map (scalarBit a) (seq 0 n)) = le_value a mod 2 ^ Z.of_nat n.
Proof.
  induction n as [|n IH]; [cbn [seq map dv]; change (2 ^ Z.of_nat 0) with 1; now rewrite Z.mod_1_r|].
  rewrite seq_S, map_app, dv_app, IH, map_length, seq_length. cbn [map dv plus]. rewrite scalarBit_testbit, Nat2Z.inj_succ.
  unfold Z.succ. rewrite mod_succ_pow by lia. lia.
Qed.
(** The digits of [slide] are zero or odd and at most 15 in size, for all scalars *)
Lemma slide_digits a : Forall digit (slide a) /\ length (slide a) = 256%nat.
Proof. apply slide_loop_digits; [apply scalar_bits_binary|]. now rewrite map_length, seq_length. Qed.
(** and sum up to the scalar if that is at most 2^255 (or a bit more) *)
Lemma slide_value a : length a = 32%nat -> le_value a < 2 ^ 255 + 15 -> dv (slide a) = le_value a.
Proof.
  intros L V. pose proof (le_value_bound a) as B. rewrite L in B.
  assert (E : dv (map (scalarBit a) (seq 0 256)) = le_value a).
  { rewrite scalar_bits_dv. apply Z.mod_small. exact B. }
  unfold slide. rewrite <- E. apply slide_loop_value; [lia|apply scalar_bits_binary|now rewrite map_length, seq_length|].
  rewrite E. exact V.
Qed.
