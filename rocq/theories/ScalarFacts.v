(** Proofs about the scalar arithmetic. *)
From Coq Require Import List NArith ZArith Lia Bool Arith String Znumtheory.
From Verif Require Import Base Extra25519 GoInt GoPoly EdCode Field FieldSpec FieldFacts FieldBytes Scalar.
Import ListNotations.
Local Open Scope Z_scope.

(** Numbers in radix 2^21 *)
Definition s12names : list (string * Z) :=
  [("s0", 2^0); ("s1", 2^21); ("s2", 2^42); ("s3", 2^63); ("s4", 2^84); ("s5", 2^105); ("s6", 2^126); ("s7", 2^147); ("s8", 2^168); ("s9", 2^189); ("s10", 2^210); ("s11", 2^231)]%string.
Definition s24names : list (string * Z) :=
  [("s0", 2^0); ("s1", 2^21); ("s2", 2^42); ("s3", 2^63); ("s4", 2^84); ("s5", 2^105); ("s6", 2^126); ("s7", 2^147); ("s8", 2^168); ("s9", 2^189); ("s10", 2^210); ("s11", 2^231); ("s12", 2^252); ("s13", 2^273); ("s14", 2^294); ("s15", 2^315); ("s16", 2^336); ("s17", 2^357); ("s18", 2^378); ("s19", 2^399); ("s20", 2^420); ("s21", 2^441); ("s22", 2^462); ("s23", 2^483)]%string.
Definition a12names : list (string * Z) :=
  [("a0", 2^0); ("a1", 2^21); ("a2", 2^42); ("a3", 2^63); ("a4", 2^84); ("a5", 2^105); ("a6", 2^126); ("a7", 2^147); ("a8", 2^168); ("a9", 2^189); ("a10", 2^210); ("a11", 2^231)]%string.
Definition b12names : list (string * Z) :=
  [("b0", 2^0); ("b1", 2^21); ("b2", 2^42); ("b3", 2^63); ("b4", 2^84); ("b5", 2^105); ("b6", 2^126); ("b7", 2^147); ("b8", 2^168); ("b9", 2^189); ("b10", 2^210); ("b11", 2^231)]%string.
Definition c12names : list (string * Z) :=
  [("c0", 2^0); ("c1", 2^21); ("c2", 2^42); ("c3", 2^63); ("c4", 2^84); ("c5", 2^105); ("c6", 2^126); ("c7", 2^147); ("c8", 2^168); ("c9", 2^189); ("c10", 2^210); ("c11", 2^231)]%string.
Definition name_vars (l : list (string * Z)) : list var := map (fun t => (fst t, 0%nat)) l.
Definition limb_itvs (n : nat) : amap := map (fun t => ((fst t, 0%nat), (0, 2097151))) (firstn n s12names).

(** The last step, packing twelve limbs *)
Lemma ScMulAdd_pack_ok e :
  Forall (in_itv e) (limb_itvs 11) -> 0 <= e ("s11"%string, 0%nat) < 2 ^ 22 ->
  le_value (map (fun x => toByte (eval e x)) ScMulAdd_pack) = ideal e (scal_expr s12names).
Proof.
  intros B B11. unfold ScMulAdd_pack, scal_expr, s12names.
  cbn [map eval le_value]. rewrite !byteZ_toByte.
  cbn [fold_left fst snd]. rewrite !ideal_add, !ideal_mul, !ideal_c, !ideal_v.
  unfold limb_itvs, s12names in B. cbn [firstn map fst] in B.
  repeat match goal with H : Forall _ (_ :: _) |- _ => inversion H; subst; clear H end.
  unfold in_itv in *. cbn [fst snd] in *.
  remember (e ("s0"%string, 0%nat)) as s0 eqn:X. clear X.
  remember (e ("s1"%string, 0%nat)) as s1 eqn:X. clear X.
  remember (e ("s2"%string, 0%nat)) as s2 eqn:X. clear X.
  remember (e ("s3"%string, 0%nat)) as s3 eqn:X. clear X.
  remember (e ("s4"%string, 0%nat)) as s4 eqn:X. clear X.
  remember (e ("s5"%string, 0%nat)) as s5 eqn:X. clear X.
  remember (e ("s6"%string, 0%nat)) as s6 eqn:X. clear X.
  remember (e ("s7"%string, 0%nat)) as s7 eqn:X. clear X.
  remember (e ("s8"%string, 0%nat)) as s8 eqn:X. clear X.
  remember (e ("s9"%string, 0%nat)) as s9 eqn:X. clear X.
  remember (e ("s10"%string, 0%nat)) as s10 eqn:X. clear X.
  remember (e ("s11"%string, 0%nat)) as s11 eqn:X. clear X.
  rewrite (pack0 s0).
  rewrite (pack1 s0 8) by lia.
  rewrite (pack2 I64 s0 s1 16 5 3) by (first [discriminate | reflexivity | lia | apply top_piece; lia]).
  rewrite (pack1 s1 3) by lia.
  rewrite (pack1 s1 11) by lia.
  rewrite (pack2 I64 s1 s2 19 2 6) by (first [discriminate | reflexivity | lia | apply top_piece; lia]).
  rewrite (pack1 s2 6) by lia.
  rewrite (pack2 I64 s2 s3 14 7 1) by (first [discriminate | reflexivity | lia | apply top_piece; lia]).
  rewrite (pack1 s3 1) by lia.
  rewrite (pack1 s3 9) by lia.
  rewrite (pack2 I64 s3 s4 17 4 4) by (first [discriminate | reflexivity | lia | apply top_piece; lia]).
  rewrite (pack1 s4 4) by lia.
  rewrite (pack1 s4 12) by lia.
  rewrite (pack2 I64 s4 s5 20 1 7) by (first [discriminate | reflexivity | lia | apply top_piece; lia]).
  rewrite (pack1 s5 7) by lia.
  rewrite (pack2 I64 s5 s6 15 6 2) by (first [discriminate | reflexivity | lia | apply top_piece; lia]).
  rewrite (pack1 s6 2) by lia.
  rewrite (pack1 s6 10) by lia.
  rewrite (pack2 I64 s6 s7 18 3 5) by (first [discriminate | reflexivity | lia | apply top_piece; lia]).
  rewrite (pack1 s7 5) by lia.
  rewrite (pack1 s7 13) by lia.
  rewrite (pack0 s8).
  rewrite (pack1 s8 8) by lia.
  rewrite (pack2 I64 s8 s9 16 5 3) by (first [discriminate | reflexivity | lia | apply top_piece; lia]).
  rewrite (pack1 s9 3) by lia.
  rewrite (pack1 s9 11) by lia.
  rewrite (pack2 I64 s9 s10 19 2 6) by (first [discriminate | reflexivity | lia | apply top_piece; lia]).
  rewrite (pack1 s10 6) by lia.
  rewrite (pack2 I64 s10 s11 14 7 1) by (first [discriminate | reflexivity | lia | apply top_piece; lia]).
  rewrite (pack1 s11 1) by lia.
  rewrite (pack1 s11 9) by lia.
  rewrite (pack1 s11 17) by lia.
  pose proof (piece0 s0 8 ltac:(lia)).
  pose proof (piece s0 8 8 16 ltac:(lia) ltac:(lia) eq_refl).
  pose proof (piece0 s1 3 ltac:(lia)).
  pose proof (piece s1 3 8 11 ltac:(lia) ltac:(lia) eq_refl).
  pose proof (piece s1 11 8 19 ltac:(lia) ltac:(lia) eq_refl).
  pose proof (piece0 s2 6 ltac:(lia)).
  pose proof (piece s2 6 8 14 ltac:(lia) ltac:(lia) eq_refl).
  pose proof (piece0 s3 1 ltac:(lia)).
  pose proof (piece s3 1 8 9 ltac:(lia) ltac:(lia) eq_refl).
  pose proof (piece s3 9 8 17 ltac:(lia) ltac:(lia) eq_refl).
  pose proof (piece0 s4 4 ltac:(lia)).
  pose proof (piece s4 4 8 12 ltac:(lia) ltac:(lia) eq_refl).
  pose proof (piece s4 12 8 20 ltac:(lia) ltac:(lia) eq_refl).
  pose proof (piece0 s5 7 ltac:(lia)).
  pose proof (piece s5 7 8 15 ltac:(lia) ltac:(lia) eq_refl).
  pose proof (piece0 s6 2 ltac:(lia)).
  pose proof (piece s6 2 8 10 ltac:(lia) ltac:(lia) eq_refl).
  pose proof (piece s6 10 8 18 ltac:(lia) ltac:(lia) eq_refl).
  pose proof (piece0 s7 5 ltac:(lia)).
  pose proof (piece s7 5 8 13 ltac:(lia) ltac:(lia) eq_refl).
  pose proof (piece s7 13 8 21 ltac:(lia) ltac:(lia) eq_refl).
  assert (s7 / 2 ^ 21 = 0) by (apply Z.div_small; lia).
  pose proof (piece0 s8 8 ltac:(lia)).
  pose proof (piece s8 8 8 16 ltac:(lia) ltac:(lia) eq_refl).
  pose proof (piece0 s9 3 ltac:(lia)).
  pose proof (piece s9 3 8 11 ltac:(lia) ltac:(lia) eq_refl).
  pose proof (piece s9 11 8 19 ltac:(lia) ltac:(lia) eq_refl).
  pose proof (piece0 s10 6 ltac:(lia)).
  pose proof (piece s10 6 8 14 ltac:(lia) ltac:(lia) eq_refl).
  pose proof (piece0 s11 1 ltac:(lia)).
  pose proof (piece s11 1 8 9 ltac:(lia) ltac:(lia) eq_refl).
  pose proof (piece s11 9 8 17 ltac:(lia) ltac:(lia) eq_refl).
  pose proof (piece s11 17 8 25 ltac:(lia) ltac:(lia) eq_refl).
  assert (s11 / 2 ^ 25 = 0) by (apply Z.div_small; lia).
  lia.
Qed.

(** The first step, splitting bytes into limbs *)
Lemma load_ext f g n : (forall i, f i = g i) -> load f n = load g n.
Proof. 
  intro H. unfold load. rewrite (H 0%nat). generalize (g 0%nat). induction (seq 1 (n - 1)) as [|x l IH]; intro z; [reflexivity|].
  cbn [fold_left]. rewrite H. apply IH.
Qed.
Lemma limb_slice b n off k : Forall isbyte b -> (off + n <= List.length b)%nat -> (0 < n)%nat -> 0 <= k -> k + 21 <= 8 * Z.of_nat n ->
  Z.land 2097151 (load (fun i => nth (off + i) b 0) n / 2 ^ k) = (leZ b / 2 ^ (8 * Z.of_nat off + k)) mod 2 ^ 21.
Proof.
  intros B H P K W. rewrite load_slice by assumption. set (N := leZ b).
  rewrite Z.land_comm. change 2097151 with (2 ^ 21 - 1). rewrite land_mask by lia.
  rewrite Z.pow_add_r by lia. set (N' := N / 2 ^ (8 * Z.of_nat off)).
  assert (0 < 2 ^ k) by (apply Z.pow_pos_nonneg; lia).
  assert (0 < 2 ^ (8 * Z.of_nat off)) by (apply Z.pow_pos_nonneg; lia).
  rewrite <- Z.div_div by lia. fold N'.
  replace (8 * Z.of_nat n) with (k + (21 + (8 * Z.of_nat n - k - 21))) by lia.
  rewrite (Z.pow_add_r 2 k), (Z.pow_add_r 2 21) by lia.
  assert (0 < 2 ^ (8 * Z.of_nat n - k - 21)) by (apply Z.pow_pos_nonneg; lia).
  assert (0 < 2 ^ 21) by lia.
  rewrite Z.rem_mul_r by lia. rewrite (Z.mul_comm (2 ^ k)), Z.div_add by lia.
  rewrite (Z.div_small (N' mod 2 ^ k)) by (apply Z.mod_pos_bound; lia). rewrite Z.add_0_l.
  symmetry. apply Znumtheory.Zmod_div_mod; [lia|nia|]. eexists. apply Z.mul_comm.
Qed.
Lemma limb_slice0 b n off : Forall isbyte b -> (off + n <= List.length b)%nat -> (0 < n)%nat -> 21 <= 8 * Z.of_nat n ->
  Z.land 2097151 (load (fun i => nth (off + i) b 0) n) = (leZ b / 2 ^ (8 * Z.of_nat off)) mod 2 ^ 21.
Proof.
  intros B H P W. pose proof (limb_slice b n off 0 B H P ltac:(lia) ltac:(lia)) as Q.
  rewrite Z.div_1_r in Q. rewrite Z.add_0_r in Q. exact Q.
Qed.
Lemma limb_top b n off k : Forall isbyte b -> (off + n = List.length b)%nat -> (0 < n)%nat -> 0 <= k <= 8 * Z.of_nat n ->
  load (fun i => nth (off + i) b 0) n / 2 ^ k = leZ b / 2 ^ (8 * Z.of_nat off + k).
Proof.
  intros B H P K. rewrite load_slice by (first [assumption | lia]). rewrite Z.pow_add_r by lia.
  assert (0 < 2 ^ k) by (apply Z.pow_pos_nonneg; lia).
  assert (0 < 2 ^ (8 * Z.of_nat off)) by (apply Z.pow_pos_nonneg; lia).
  rewrite <- Z.div_div by lia. f_equal. apply Z.mod_small. pose proof (leZ_bound b B) as Bd.
  rewrite pow256 in Bd. rewrite <- H in Bd. rewrite Nat2Z.inj_add, Z.mul_add_distr_l, Z.pow_add_r in Bd by lia.
  split; [apply Z.div_pos; lia|]. apply Z.div_lt_upper_bound; lia.
Qed.

Lemma ScMulAdd_a e b : List.length b = 32%nat -> Forall isbyte b -> (forall i, e ("a"%string, i) = nth i b 0) ->
  ideal (iexec e ScMulAdd_code1) (scal_expr a12names) = leZ b.
Proof.
  intros Lb Bb E.
  assert (Q : ideal (iexec e ScMulAdd_code1) (scal_expr a12names) =
    0 + 2 ^ 0 * Z.land 2097151 (load (fun i => e ("a"%string, (0 + i)%nat)) 3) +
    2 ^ 21 * Z.land 2097151 ((load (fun i => e ("a"%string, (2 + i)%nat)) 4 / 2 ^ 5)) +
    2 ^ 42 * Z.land 2097151 ((load (fun i => e ("a"%string, (5 + i)%nat)) 3 / 2 ^ 2)) +
    2 ^ 63 * Z.land 2097151 ((load (fun i => e ("a"%string, (7 + i)%nat)) 4 / 2 ^ 7)) +
    2 ^ 84 * Z.land 2097151 ((load (fun i => e ("a"%string, (10 + i)%nat)) 4 / 2 ^ 4)) +
    2 ^ 105 * Z.land 2097151 ((load (fun i => e ("a"%string, (13 + i)%nat)) 3 / 2 ^ 1)) +
    2 ^ 126 * Z.land 2097151 ((load (fun i => e ("a"%string, (15 + i)%nat)) 4 / 2 ^ 6)) +
    2 ^ 147 * Z.land 2097151 ((load (fun i => e ("a"%string, (18 + i)%nat)) 3 / 2 ^ 3)) +
    2 ^ 168 * Z.land 2097151 (load (fun i => e ("a"%string, (21 + i)%nat)) 3) +
    2 ^ 189 * Z.land 2097151 ((load (fun i => e ("a"%string, (23 + i)%nat)) 4 / 2 ^ 5)) +
    2 ^ 210 * Z.land 2097151 ((load (fun i => e ("a"%string, (26 + i)%nat)) 3 / 2 ^ 2)) +
    2 ^ 231 * (load (fun i => e ("a"%string, (28 + i)%nat)) 4 / 2 ^ 7)).
  { unfold scal_expr, a12names. cbn [fold_left fst snd]. rewrite !ideal_add, !ideal_mul, !ideal_c, !ideal_v.
    lazy -[Z.add Z.mul Z.div Z.pow Z.land load]. reflexivity. }
  rewrite Q. clear Q.
  replace (load (fun i => e ("a"%string, (0 + i)%nat)) 3) with (load (fun i => nth (0 + i) b 0) 3)
    by (apply load_ext; intro; now rewrite E).
  replace (load (fun i => e ("a"%string, (5 + i)%nat)) 3) with (load (fun i => nth (5 + i) b 0) 3)
    by (apply load_ext; intro; now rewrite E).
  replace (load (fun i => e ("a"%string, (13 + i)%nat)) 3) with (load (fun i => nth (13 + i) b 0) 3)
    by (apply load_ext; intro; now rewrite E).
  replace (load (fun i => e ("a"%string, (18 + i)%nat)) 3) with (load (fun i => nth (18 + i) b 0) 3)
    by (apply load_ext; intro; now rewrite E).
  replace (load (fun i => e ("a"%string, (21 + i)%nat)) 3) with (load (fun i => nth (21 + i) b 0) 3)
    by (apply load_ext; intro; now rewrite E).
  replace (load (fun i => e ("a"%string, (26 + i)%nat)) 3) with (load (fun i => nth (26 + i) b 0) 3)
    by (apply load_ext; intro; now rewrite E).
  replace (load (fun i => e ("a"%string, (2 + i)%nat)) 4) with (load (fun i => nth (2 + i) b 0) 4)
    by (apply load_ext; intro; now rewrite E).
  replace (load (fun i => e ("a"%string, (7 + i)%nat)) 4) with (load (fun i => nth (7 + i) b 0) 4)
    by (apply load_ext; intro; now rewrite E).
  replace (load (fun i => e ("a"%string, (10 + i)%nat)) 4) with (load (fun i => nth (10 + i) b 0) 4)
    by (apply load_ext; intro; now rewrite E).
  replace (load (fun i => e ("a"%string, (15 + i)%nat)) 4) with (load (fun i => nth (15 + i) b 0) 4)
    by (apply load_ext; intro; now rewrite E).
  replace (load (fun i => e ("a"%string, (23 + i)%nat)) 4) with (load (fun i => nth (23 + i) b 0) 4)
    by (apply load_ext; intro; now rewrite E).
  replace (load (fun i => e ("a"%string, (28 + i)%nat)) 4) with (load (fun i => nth (28 + i) b 0) 4)
    by (apply load_ext; intro; now rewrite E).
  rewrite (limb_slice0 b 3 0) by (first [assumption | lia]).
  rewrite (limb_slice b 4 2 5) by (first [assumption | lia]).
  rewrite (limb_slice b 3 5 2) by (first [assumption | lia]).
  rewrite (limb_slice b 4 7 7) by (first [assumption | lia]).
  rewrite (limb_slice b 4 10 4) by (first [assumption | lia]).
  rewrite (limb_slice b 3 13 1) by (first [assumption | lia]).
  rewrite (limb_slice b 4 15 6) by (first [assumption | lia]).
  rewrite (limb_slice b 3 18 3) by (first [assumption | lia]).
  rewrite (limb_slice0 b 3 21) by (first [assumption | lia]).
  rewrite (limb_slice b 4 23 5) by (first [assumption | lia]).
  rewrite (limb_slice b 3 26 2) by (first [assumption | lia]).
  rewrite (limb_top b 4 28 7) by (first [assumption | lia]).
  cbn [Z.of_nat Pos.of_succ_nat Pos.succ Z.mul Pos.mul Z.add Pos.add]. set (N := leZ b).
  pose proof (piece0 N 21 ltac:(lia)) as H0.
  pose proof (piece N 21 21 42 ltac:(lia) ltac:(lia) eq_refl) as H1.
  pose proof (piece N 42 21 63 ltac:(lia) ltac:(lia) eq_refl) as H2.
  pose proof (piece N 63 21 84 ltac:(lia) ltac:(lia) eq_refl) as H3.
  pose proof (piece N 84 21 105 ltac:(lia) ltac:(lia) eq_refl) as H4.
  pose proof (piece N 105 21 126 ltac:(lia) ltac:(lia) eq_refl) as H5.
  pose proof (piece N 126 21 147 ltac:(lia) ltac:(lia) eq_refl) as H6.
  pose proof (piece N 147 21 168 ltac:(lia) ltac:(lia) eq_refl) as H7.
  pose proof (piece N 168 21 189 ltac:(lia) ltac:(lia) eq_refl) as H8.
  pose proof (piece N 189 21 210 ltac:(lia) ltac:(lia) eq_refl) as H9.
  pose proof (piece N 210 21 231 ltac:(lia) ltac:(lia) eq_refl) as H10.
  change (2 ^ 0) with 1 in *. rewrite Z.div_1_r. lia.
Qed.
Lemma ScMulAdd_b e b : List.length b = 32%nat -> Forall isbyte b -> (forall i, e ("b"%string, i) = nth i b 0) ->
  ideal (iexec e ScMulAdd_code1) (scal_expr b12names) = leZ b.
Proof.
  intros Lb Bb E.
  assert (Q : ideal (iexec e ScMulAdd_code1) (scal_expr b12names) =
    0 + 2 ^ 0 * Z.land 2097151 (load (fun i => e ("b"%string, (0 + i)%nat)) 3) +
    2 ^ 21 * Z.land 2097151 ((load (fun i => e ("b"%string, (2 + i)%nat)) 4 / 2 ^ 5)) +
    2 ^ 42 * Z.land 2097151 ((load (fun i => e ("b"%string, (5 + i)%nat)) 3 / 2 ^ 2)) +
    2 ^ 63 * Z.land 2097151 ((load (fun i => e ("b"%string, (7 + i)%nat)) 4 / 2 ^ 7)) +
    2 ^ 84 * Z.land 2097151 ((load (fun i => e ("b"%string, (10 + i)%nat)) 4 / 2 ^ 4)) +
    2 ^ 105 * Z.land 2097151 ((load (fun i => e ("b"%string, (13 + i)%nat)) 3 / 2 ^ 1)) +
    2 ^ 126 * Z.land 2097151 ((load (fun i => e ("b"%string, (15 + i)%nat)) 4 / 2 ^ 6)) +
    2 ^ 147 * Z.land 2097151 ((load (fun i => e ("b"%string, (18 + i)%nat)) 3 / 2 ^ 3)) +
    2 ^ 168 * Z.land 2097151 (load (fun i => e ("b"%string, (21 + i)%nat)) 3) +
    2 ^ 189 * Z.land 2097151 ((load (fun i => e ("b"%string, (23 + i)%nat)) 4 / 2 ^ 5)) +
    2 ^ 210 * Z.land 2097151 ((load (fun i => e ("b"%string, (26 + i)%nat)) 3 / 2 ^ 2)) +
    2 ^ 231 * (load (fun i => e ("b"%string, (28 + i)%nat)) 4 / 2 ^ 7)).
  { unfold scal_expr, b12names. cbn [fold_left fst snd]. rewrite !ideal_add, !ideal_mul, !ideal_c, !ideal_v.
    lazy -[Z.add Z.mul Z.div Z.pow Z.land load]. reflexivity. }
  rewrite Q. clear Q.
  replace (load (fun i => e ("b"%string, (0 + i)%nat)) 3) with (load (fun i => nth (0 + i) b 0) 3)
    by (apply load_ext; intro; now rewrite E).
  replace (load (fun i => e ("b"%string, (5 + i)%nat)) 3) with (load (fun i => nth (5 + i) b 0) 3)
    by (apply load_ext; intro; now rewrite E).
  replace (load (fun i => e ("b"%string, (13 + i)%nat)) 3) with (load (fun i => nth (13 + i) b 0) 3)
    by (apply load_ext; intro; now rewrite E).
  replace (load (fun i => e ("b"%string, (18 + i)%nat)) 3) with (load (fun i => nth (18 + i) b 0) 3)
    by (apply load_ext; intro; now rewrite E).
  replace (load (fun i => e ("b"%string, (21 + i)%nat)) 3) with (load (fun i => nth (21 + i) b 0) 3)
    by (apply load_ext; intro; now rewrite E).
  replace (load (fun i => e ("b"%string, (26 + i)%nat)) 3) with (load (fun i => nth (26 + i) b 0) 3)
    by (apply load_ext; intro; now rewrite E).
  replace (load (fun i => e ("b"%string, (2 + i)%nat)) 4) with (load (fun i => nth (2 + i) b 0) 4)
    by (apply load_ext; intro; now rewrite E).
  replace (load (fun i => e ("b"%string, (7 + i)%nat)) 4) with (load (fun i => nth (7 + i) b 0) 4)
    by (apply load_ext; intro; now rewrite E).
  replace (load (fun i => e ("b"%string, (10 + i)%nat)) 4) with (load (fun i => nth (10 + i) b 0) 4)
    by (apply load_ext; intro; now rewrite E).
  replace (load (fun i => e ("b"%string, (15 + i)%nat)) 4) with (load (fun i => nth (15 + i) b 0) 4)
    by (apply load_ext; intro; now rewrite E).
  replace (load (fun i => e ("b"%string, (23 + i)%nat)) 4) with (load (fun i => nth (23 + i) b 0) 4)
    by (apply load_ext; intro; now rewrite E).
  replace (load (fun i => e ("b"%string, (28 + i)%nat)) 4) with (load (fun i => nth (28 + i) b 0) 4)
    by (apply load_ext; intro; now rewrite E).
  rewrite (limb_slice0 b 3 0) by (first [assumption | lia]).
  rewrite (limb_slice b 4 2 5) by (first [assumption | lia]).
  rewrite (limb_slice b 3 5 2) by (first [assumption | lia]).
  rewrite (limb_slice b 4 7 7) by (first [assumption | lia]).
  rewrite (limb_slice b 4 10 4) by (first [assumption | lia]).
  rewrite (limb_slice b 3 13 1) by (first [assumption | lia]).
  rewrite (limb_slice b 4 15 6) by (first [assumption | lia]).
  rewrite (limb_slice b 3 18 3) by (first [assumption | lia]).
  rewrite (limb_slice0 b 3 21) by (first [assumption | lia]).
  rewrite (limb_slice b 4 23 5) by (first [assumption | lia]).
  rewrite (limb_slice b 3 26 2) by (first [assumption | lia]).
  rewrite (limb_top b 4 28 7) by (first [assumption | lia]).
  cbn [Z.of_nat Pos.of_succ_nat Pos.succ Z.mul Pos.mul Z.add Pos.add]. set (N := leZ b).
  pose proof (piece0 N 21 ltac:(lia)) as H0.
  pose proof (piece N 21 21 42 ltac:(lia) ltac:(lia) eq_refl) as H1.
  pose proof (piece N 42 21 63 ltac:(lia) ltac:(lia) eq_refl) as H2.
  pose proof (piece N 63 21 84 ltac:(lia) ltac:(lia) eq_refl) as H3.
  pose proof (piece N 84 21 105 ltac:(lia) ltac:(lia) eq_refl) as H4.
  pose proof (piece N 105 21 126 ltac:(lia) ltac:(lia) eq_refl) as H5.
  pose proof (piece N 126 21 147 ltac:(lia) ltac:(lia) eq_refl) as H6.
  pose proof (piece N 147 21 168 ltac:(lia) ltac:(lia) eq_refl) as H7.
  pose proof (piece N 168 21 189 ltac:(lia) ltac:(lia) eq_refl) as H8.
  pose proof (piece N 189 21 210 ltac:(lia) ltac:(lia) eq_refl) as H9.
  pose proof (piece N 210 21 231 ltac:(lia) ltac:(lia) eq_refl) as H10.
  change (2 ^ 0) with 1 in *. rewrite Z.div_1_r. lia.
Qed.
Lemma ScMulAdd_c e b : List.length b = 32%nat -> Forall isbyte b -> (forall i, e ("c"%string, i) = nth i b 0) ->
  ideal (iexec e ScMulAdd_code1) (scal_expr c12names) = leZ b.
Proof.
  intros Lb Bb E.
  assert (Q : ideal (iexec e ScMulAdd_code1) (scal_expr c12names) =
    0 + 2 ^ 0 * Z.land 2097151 (load (fun i => e ("c"%string, (0 + i)%nat)) 3) +
    2 ^ 21 * Z.land 2097151 ((load (fun i => e ("c"%string, (2 + i)%nat)) 4 / 2 ^ 5)) +
    2 ^ 42 * Z.land 2097151 ((load (fun i => e ("c"%string, (5 + i)%nat)) 3 / 2 ^ 2)) +
    2 ^ 63 * Z.land 2097151 ((load (fun i => e ("c"%string, (7 + i)%nat)) 4 / 2 ^ 7)) +
    2 ^ 84 * Z.land 2097151 ((load (fun i => e ("c"%string, (10 + i)%nat)) 4 / 2 ^ 4)) +
    2 ^ 105 * Z.land 2097151 ((load (fun i => e ("c"%string, (13 + i)%nat)) 3 / 2 ^ 1)) +
    2 ^ 126 * Z.land 2097151 ((load (fun i => e ("c"%string, (15 + i)%nat)) 4 / 2 ^ 6)) +
    2 ^ 147 * Z.land 2097151 ((load (fun i => e ("c"%string, (18 + i)%nat)) 3 / 2 ^ 3)) +
    2 ^ 168 * Z.land 2097151 (load (fun i => e ("c"%string, (21 + i)%nat)) 3) +
    2 ^ 189 * Z.land 2097151 ((load (fun i => e ("c"%string, (23 + i)%nat)) 4 / 2 ^ 5)) +
    2 ^ 210 * Z.land 2097151 ((load (fun i => e ("c"%string, (26 + i)%nat)) 3 / 2 ^ 2)) +
    2 ^ 231 * (load (fun i => e ("c"%string, (28 + i)%nat)) 4 / 2 ^ 7)).
  { unfold scal_expr, c12names. cbn [fold_left fst snd]. rewrite !ideal_add, !ideal_mul, !ideal_c, !ideal_v.
    lazy -[Z.add Z.mul Z.div Z.pow Z.land load]. reflexivity. }
  rewrite Q. clear Q.
  replace (load (fun i => e ("c"%string, (0 + i)%nat)) 3) with (load (fun i => nth (0 + i) b 0) 3)
    by (apply load_ext; intro; now rewrite E).
  replace (load (fun i => e ("c"%string, (5 + i)%nat)) 3) with (load (fun i => nth (5 + i) b 0) 3)
    by (apply load_ext; intro; now rewrite E).
  replace (load (fun i => e ("c"%string, (13 + i)%nat)) 3) with (load (fun i => nth (13 + i) b 0) 3)
    by (apply load_ext; intro; now rewrite E).
  replace (load (fun i => e ("c"%string, (18 + i)%nat)) 3) with (load (fun i => nth (18 + i) b 0) 3)
    by (apply load_ext; intro; now rewrite E).
  replace (load (fun i => e ("c"%string, (21 + i)%nat)) 3) with (load (fun i => nth (21 + i) b 0) 3)
    by (apply load_ext; intro; now rewrite E).
  replace (load (fun i => e ("c"%string, (26 + i)%nat)) 3) with (load (fun i => nth (26 + i) b 0) 3)
    by (apply load_ext; intro; now rewrite E).
  replace (load (fun i => e ("c"%string, (2 + i)%nat)) 4) with (load (fun i => nth (2 + i) b 0) 4)
    by (apply load_ext; intro; now rewrite E).
  replace (load (fun i => e ("c"%string, (7 + i)%nat)) 4) with (load (fun i => nth (7 + i) b 0) 4)
    by (apply load_ext; intro; now rewrite E).
  replace (load (fun i => e ("c"%string, (10 + i)%nat)) 4) with (load (fun i => nth (10 + i) b 0) 4)
    by (apply load_ext; intro; now rewrite E).
  replace (load (fun i => e ("c"%string, (15 + i)%nat)) 4) with (load (fun i => nth (15 + i) b 0) 4)
    by (apply load_ext; intro; now rewrite E).
  replace (load (fun i => e ("c"%string, (23 + i)%nat)) 4) with (load (fun i => nth (23 + i) b 0) 4)
    by (apply load_ext; intro; now rewrite E).
  replace (load (fun i => e ("c"%string, (28 + i)%nat)) 4) with (load (fun i => nth (28 + i) b 0) 4)
    by (apply load_ext; intro; now rewrite E).
  rewrite (limb_slice0 b 3 0) by (first [assumption | lia]).
  rewrite (limb_slice b 4 2 5) by (first [assumption | lia]).
  rewrite (limb_slice b 3 5 2) by (first [assumption | lia]).
  rewrite (limb_slice b 4 7 7) by (first [assumption | lia]).
  rewrite (limb_slice b 4 10 4) by (first [assumption | lia]).
  rewrite (limb_slice b 3 13 1) by (first [assumption | lia]).
  rewrite (limb_slice b 4 15 6) by (first [assumption | lia]).
  rewrite (limb_slice b 3 18 3) by (first [assumption | lia]).
  rewrite (limb_slice0 b 3 21) by (first [assumption | lia]).
  rewrite (limb_slice b 4 23 5) by (first [assumption | lia]).
  rewrite (limb_slice b 3 26 2) by (first [assumption | lia]).
  rewrite (limb_top b 4 28 7) by (first [assumption | lia]).
  cbn [Z.of_nat Pos.of_succ_nat Pos.succ Z.mul Pos.mul Z.add Pos.add]. set (N := leZ b).
  pose proof (piece0 N 21 ltac:(lia)) as H0.
  pose proof (piece N 21 21 42 ltac:(lia) ltac:(lia) eq_refl) as H1.
  pose proof (piece N 42 21 63 ltac:(lia) ltac:(lia) eq_refl) as H2.
  pose proof (piece N 63 21 84 ltac:(lia) ltac:(lia) eq_refl) as H3.
  pose proof (piece N 84 21 105 ltac:(lia) ltac:(lia) eq_refl) as H4.
  pose proof (piece N 105 21 126 ltac:(lia) ltac:(lia) eq_refl) as H5.
  pose proof (piece N 126 21 147 ltac:(lia) ltac:(lia) eq_refl) as H6.
  pose proof (piece N 147 21 168 ltac:(lia) ltac:(lia) eq_refl) as H7.
  pose proof (piece N 168 21 189 ltac:(lia) ltac:(lia) eq_refl) as H8.
  pose proof (piece N 189 21 210 ltac:(lia) ltac:(lia) eq_refl) as H9.
  pose proof (piece N 210 21 231 ltac:(lia) ltac:(lia) eq_refl) as H10.
  change (2 ^ 0) with 1 in *. rewrite Z.div_1_r. lia.
Qed.
Lemma ScReduce_s e b : List.length b = 64%nat -> Forall isbyte b -> (forall i, e ("s"%string, i) = nth i b 0) ->
  ideal (iexec e ScReduce_code1) (scal_expr s24names) = leZ b.
Proof.
  intros Lb Bb E.
  assert (Q : ideal (iexec e ScReduce_code1) (scal_expr s24names) =
    0 + 2 ^ 0 * Z.land 2097151 (load (fun i => e ("s"%string, (0 + i)%nat)) 3) +
    2 ^ 21 * Z.land 2097151 ((load (fun i => e ("s"%string, (2 + i)%nat)) 4 / 2 ^ 5)) +
    2 ^ 42 * Z.land 2097151 ((load (fun i => e ("s"%string, (5 + i)%nat)) 3 / 2 ^ 2)) +
    2 ^ 63 * Z.land 2097151 ((load (fun i => e ("s"%string, (7 + i)%nat)) 4 / 2 ^ 7)) +
    2 ^ 84 * Z.land 2097151 ((load (fun i => e ("s"%string, (10 + i)%nat)) 4 / 2 ^ 4)) +
    2 ^ 105 * Z.land 2097151 ((load (fun i => e ("s"%string, (13 + i)%nat)) 3 / 2 ^ 1)) +
    2 ^ 126 * Z.land 2097151 ((load (fun i => e ("s"%string, (15 + i)%nat)) 4 / 2 ^ 6)) +
    2 ^ 147 * Z.land 2097151 ((load (fun i => e ("s"%string, (18 + i)%nat)) 3 / 2 ^ 3)) +
    2 ^ 168 * Z.land 2097151 (load (fun i => e ("s"%string, (21 + i)%nat)) 3) +
    2 ^ 189 * Z.land 2097151 ((load (fun i => e ("s"%string, (23 + i)%nat)) 4 / 2 ^ 5)) +
    2 ^ 210 * Z.land 2097151 ((load (fun i => e ("s"%string, (26 + i)%nat)) 3 / 2 ^ 2)) +
    2 ^ 231 * Z.land 2097151 ((load (fun i => e ("s"%string, (28 + i)%nat)) 4 / 2 ^ 7)) +
    2 ^ 252 * Z.land 2097151 ((load (fun i => e ("s"%string, (31 + i)%nat)) 4 / 2 ^ 4)) +
    2 ^ 273 * Z.land 2097151 ((load (fun i => e ("s"%string, (34 + i)%nat)) 3 / 2 ^ 1)) +
    2 ^ 294 * Z.land 2097151 ((load (fun i => e ("s"%string, (36 + i)%nat)) 4 / 2 ^ 6)) +
    2 ^ 315 * Z.land 2097151 ((load (fun i => e ("s"%string, (39 + i)%nat)) 3 / 2 ^ 3)) +
    2 ^ 336 * Z.land 2097151 (load (fun i => e ("s"%string, (42 + i)%nat)) 3) +
    2 ^ 357 * Z.land 2097151 ((load (fun i => e ("s"%string, (44 + i)%nat)) 4 / 2 ^ 5)) +
    2 ^ 378 * Z.land 2097151 ((load (fun i => e ("s"%string, (47 + i)%nat)) 3 / 2 ^ 2)) +
    2 ^ 399 * Z.land 2097151 ((load (fun i => e ("s"%string, (49 + i)%nat)) 4 / 2 ^ 7)) +
    2 ^ 420 * Z.land 2097151 ((load (fun i => e ("s"%string, (52 + i)%nat)) 4 / 2 ^ 4)) +
    2 ^ 441 * Z.land 2097151 ((load (fun i => e ("s"%string, (55 + i)%nat)) 3 / 2 ^ 1)) +
    2 ^ 462 * Z.land 2097151 ((load (fun i => e ("s"%string, (57 + i)%nat)) 4 / 2 ^ 6)) +
    2 ^ 483 * (load (fun i => e ("s"%string, (60 + i)%nat)) 4 / 2 ^ 3)).
  { unfold scal_expr, s24names. cbn [fold_left fst snd]. rewrite !ideal_add, !ideal_mul, !ideal_c, !ideal_v.
    lazy -[Z.add Z.mul Z.div Z.pow Z.land load]. reflexivity. }
  rewrite Q. clear Q.
  replace (load (fun i => e ("s"%string, (0 + i)%nat)) 3) with (load (fun i => nth (0 + i) b 0) 3)
    by (apply load_ext; intro; now rewrite E).
  replace (load (fun i => e ("s"%string, (5 + i)%nat)) 3) with (load (fun i => nth (5 + i) b 0) 3)
    by (apply load_ext; intro; now rewrite E).
  replace (load (fun i => e ("s"%string, (13 + i)%nat)) 3) with (load (fun i => nth (13 + i) b 0) 3)
    by (apply load_ext; intro; now rewrite E).
  replace (load (fun i => e ("s"%string, (18 + i)%nat)) 3) with (load (fun i => nth (18 + i) b 0) 3)
    by (apply load_ext; intro; now rewrite E).
  replace (load (fun i => e ("s"%string, (21 + i)%nat)) 3) with (load (fun i => nth (21 + i) b 0) 3)
    by (apply load_ext; intro; now rewrite E).
  replace (load (fun i => e ("s"%string, (26 + i)%nat)) 3) with (load (fun i => nth (26 + i) b 0) 3)
    by (apply load_ext; intro; now rewrite E).
  replace (load (fun i => e ("s"%string, (34 + i)%nat)) 3) with (load (fun i => nth (34 + i) b 0) 3)
    by (apply load_ext; intro; now rewrite E).
  replace (load (fun i => e ("s"%string, (39 + i)%nat)) 3) with (load (fun i => nth (39 + i) b 0) 3)
    by (apply load_ext; intro; now rewrite E).
  replace (load (fun i => e ("s"%string, (42 + i)%nat)) 3) with (load (fun i => nth (42 + i) b 0) 3)
    by (apply load_ext; intro; now rewrite E).
  replace (load (fun i => e ("s"%string, (47 + i)%nat)) 3) with (load (fun i => nth (47 + i) b 0) 3)
    by (apply load_ext; intro; now rewrite E).
  replace (load (fun i => e ("s"%string, (55 + i)%nat)) 3) with (load (fun i => nth (55 + i) b 0) 3)
    by (apply load_ext; intro; now rewrite E).
  replace (load (fun i => e ("s"%string, (2 + i)%nat)) 4) with (load (fun i => nth (2 + i) b 0) 4)
    by (apply load_ext; intro; now rewrite E).
  replace (load (fun i => e ("s"%string, (7 + i)%nat)) 4) with (load (fun i => nth (7 + i) b 0) 4)
    by (apply load_ext; intro; now rewrite E).
  replace (load (fun i => e ("s"%string, (10 + i)%nat)) 4) with (load (fun i => nth (10 + i) b 0) 4)
    by (apply load_ext; intro; now rewrite E).
  replace (load (fun i => e ("s"%string, (15 + i)%nat)) 4) with (load (fun i => nth (15 + i) b 0) 4)
    by (apply load_ext; intro; now rewrite E).
  replace (load (fun i => e ("s"%string, (23 + i)%nat)) 4) with (load (fun i => nth (23 + i) b 0) 4)
    by (apply load_ext; intro; now rewrite E).
  replace (load (fun i => e ("s"%string, (28 + i)%nat)) 4) with (load (fun i => nth (28 + i) b 0) 4)
    by (apply load_ext; intro; now rewrite E).
  replace (load (fun i => e ("s"%string, (31 + i)%nat)) 4) with (load (fun i => nth (31 + i) b 0) 4)
    by (apply load_ext; intro; now rewrite E).
  replace (load (fun i => e ("s"%string, (36 + i)%nat)) 4) with (load (fun i => nth (36 + i) b 0) 4)
    by (apply load_ext; intro; now rewrite E).
  replace (load (fun i => e ("s"%string, (44 + i)%nat)) 4) with (load (fun i => nth (44 + i) b 0) 4)
    by (apply load_ext; intro; now rewrite E).
  replace (load (fun i => e ("s"%string, (49 + i)%nat)) 4) with (load (fun i => nth (49 + i) b 0) 4)
    by (apply load_ext; intro; now rewrite E).
  replace (load (fun i => e ("s"%string, (52 + i)%nat)) 4) with (load (fun i => nth (52 + i) b 0) 4)
    by (apply load_ext; intro; now rewrite E).
  replace (load (fun i => e ("s"%string, (57 + i)%nat)) 4) with (load (fun i => nth (57 + i) b 0) 4)
    by (apply load_ext; intro; now rewrite E).
  replace (load (fun i => e ("s"%string, (60 + i)%nat)) 4) with (load (fun i => nth (60 + i) b 0) 4)
    by (apply load_ext; intro; now rewrite E).
  rewrite (limb_slice0 b 3 0) by (first [assumption | lia]).
  rewrite (limb_slice b 4 2 5) by (first [assumption | lia]).
  rewrite (limb_slice b 3 5 2) by (first [assumption | lia]).
  rewrite (limb_slice b 4 7 7) by (first [assumption | lia]).
  rewrite (limb_slice b 4 10 4) by (first [assumption | lia]).
  rewrite (limb_slice b 3 13 1) by (first [assumption | lia]).
  rewrite (limb_slice b 4 15 6) by (first [assumption | lia]).
  rewrite (limb_slice b 3 18 3) by (first [assumption | lia]).
  rewrite (limb_slice0 b 3 21) by (first [assumption | lia]).
  rewrite (limb_slice b 4 23 5) by (first [assumption | lia]).
  rewrite (limb_slice b 3 26 2) by (first [assumption | lia]).
  rewrite (limb_slice b 4 28 7) by (first [assumption | lia]).
  rewrite (limb_slice b 4 31 4) by (first [assumption | lia]).
  rewrite (limb_slice b 3 34 1) by (first [assumption | lia]).
  rewrite (limb_slice b 4 36 6) by (first [assumption | lia]).
  rewrite (limb_slice b 3 39 3) by (first [assumption | lia]).
  rewrite (limb_slice0 b 3 42) by (first [assumption | lia]).
  rewrite (limb_slice b 4 44 5) by (first [assumption | lia]).
  rewrite (limb_slice b 3 47 2) by (first [assumption | lia]).
  rewrite (limb_slice b 4 49 7) by (first [assumption | lia]).
  rewrite (limb_slice b 4 52 4) by (first [assumption | lia]).
  rewrite (limb_slice b 3 55 1) by (first [assumption | lia]).
  rewrite (limb_slice b 4 57 6) by (first [assumption | lia]).
  rewrite (limb_top b 4 60 3) by (first [assumption | lia]).
  cbn [Z.of_nat Pos.of_succ_nat Pos.succ Z.mul Pos.mul Z.add Pos.add]. set (N := leZ b).
  pose proof (piece0 N 21 ltac:(lia)) as H0.
  pose proof (piece N 21 21 42 ltac:(lia) ltac:(lia) eq_refl) as H1.
  pose proof (piece N 42 21 63 ltac:(lia) ltac:(lia) eq_refl) as H2.
  pose proof (piece N 63 21 84 ltac:(lia) ltac:(lia) eq_refl) as H3.
  pose proof (piece N 84 21 105 ltac:(lia) ltac:(lia) eq_refl) as H4.
  pose proof (piece N 105 21 126 ltac:(lia) ltac:(lia) eq_refl) as H5.
  pose proof (piece N 126 21 147 ltac:(lia) ltac:(lia) eq_refl) as H6.
  pose proof (piece N 147 21 168 ltac:(lia) ltac:(lia) eq_refl) as H7.
  pose proof (piece N 168 21 189 ltac:(lia) ltac:(lia) eq_refl) as H8.
  pose proof (piece N 189 21 210 ltac:(lia) ltac:(lia) eq_refl) as H9.
  pose proof (piece N 210 21 231 ltac:(lia) ltac:(lia) eq_refl) as H10.
  pose proof (piece N 231 21 252 ltac:(lia) ltac:(lia) eq_refl) as H11.
  pose proof (piece N 252 21 273 ltac:(lia) ltac:(lia) eq_refl) as H12.
  pose proof (piece N 273 21 294 ltac:(lia) ltac:(lia) eq_refl) as H13.
  pose proof (piece N 294 21 315 ltac:(lia) ltac:(lia) eq_refl) as H14.
  pose proof (piece N 315 21 336 ltac:(lia) ltac:(lia) eq_refl) as H15.
  pose proof (piece N 336 21 357 ltac:(lia) ltac:(lia) eq_refl) as H16.
  pose proof (piece N 357 21 378 ltac:(lia) ltac:(lia) eq_refl) as H17.
  pose proof (piece N 378 21 399 ltac:(lia) ltac:(lia) eq_refl) as H18.
  pose proof (piece N 399 21 420 ltac:(lia) ltac:(lia) eq_refl) as H19.
  pose proof (piece N 420 21 441 ltac:(lia) ltac:(lia) eq_refl) as H20.
  pose proof (piece N 441 21 462 ltac:(lia) ltac:(lia) eq_refl) as H21.
  pose proof (piece N 462 21 483 ltac:(lia) ltac:(lia) eq_refl) as H22.
  change (2 ^ 0) with 1 in *. rewrite Z.div_1_r. lia.
Qed.

(** The steps in between: congruences and ranges *)
Definition minus_c : expr := Emul I64 (Ec (2 ^ 252 - L25519)) (Ev ("s12"%string, 0%nat)).
Lemma ScMulAdd_poly :
  congr_check L25519 (name_vars a12names ++ name_vars b12names ++ name_vars c12names)
    (ScMulAdd_code2 ++ ScMulAdd_code3 ++ ScMulAdd_code4 ++ ScMulAdd_code5) (scal_expr s12names)
    (Eadd I64 (Emul I64 (scal_expr a12names) (scal_expr b12names)) (scal_expr c12names)) = true.
Proof. vm_compute. reflexivity. Qed.
Lemma ScReduce_poly :
  congr_check L25519 (name_vars s24names)
    (ScReduce_code2 ++ ScReduce_code3 ++ ScReduce_code4 ++ ScReduce_code5) (scal_expr s12names) (scal_expr s24names) = true.
Proof. vm_compute. reflexivity. Qed.
Lemma ScMulAdd_last_poly :
  congr_check 0 (name_vars (s12names ++ [("s12"%string, 0)])) (ScMulAdd_code4 ++ ScMulAdd_code5)
    (scal_expr s12names) (Eadd I64 (scal_expr s12names) minus_c) = true.
Proof. vm_compute. reflexivity. Qed.
Lemma ScReduce_last_poly :
  congr_check 0 (name_vars (s12names ++ [("s12"%string, 0)])) (ScReduce_code4 ++ ScReduce_code5)
    (scal_expr s12names) (Eadd I64 (scal_expr s12names) minus_c) = true.
Proof. vm_compute. reflexivity. Qed.
Definition mid_itvs : amap := (("s12"%string, 0%nat), (-1, 0)) :: limb_itvs 12.
Definition end_itvs : amap := (("s11"%string, 0%nat), (-1, 2097152)) :: limb_itvs 11.
Definition abc_itvs : amap := (byte_itvs "a" 32 ++ byte_itvs "b" 32 ++ byte_itvs "c" 32)%list.
Lemma ScMulAdd_mid : range_check abc_itvs (ScMulAdd_code1 ++ ScMulAdd_code2 ++ ScMulAdd_code3) mid_itvs = true.
Proof. vm_compute. reflexivity. Qed.
Lemma ScMulAdd_end :
  range_check abc_itvs (ScMulAdd_code1 ++ ScMulAdd_code2 ++ ScMulAdd_code3 ++ ScMulAdd_code4 ++ ScMulAdd_code5) end_itvs = true.
Proof. vm_compute. reflexivity. Qed.
Lemma ScReduce_mid : range_check (byte_itvs "s" 64) (ScReduce_code1 ++ ScReduce_code2 ++ ScReduce_code3) mid_itvs = true.
Proof. vm_compute. reflexivity. Qed.
Lemma ScReduce_end :
  range_check (byte_itvs "s" 64) (ScReduce_code1 ++ ScReduce_code2 ++ ScReduce_code3 ++ ScReduce_code4 ++ ScReduce_code5) end_itvs = true.
Proof. vm_compute. reflexivity. Qed.

Ltac limbs H :=
  unfold limb_itvs, s12names in H; cbn [firstn map fst] in H;
  repeat match goal with H : Forall _ (_ :: _) |- _ => inversion H; subst; clear H end;
  unfold in_itv in *; cbn [fst snd] in *.
Ltac limb_vars e :=
  unfold scal_expr, s12names in *; cbn [fold_left fst snd] in *;
  rewrite ?ideal_add, ?ideal_mul, ?ideal_c, ?ideal_v in *;
  remember (e ("s0"%string, 0%nat)) as s0 eqn:X0; clear X0;
  remember (e ("s1"%string, 0%nat)) as s1 eqn:X1; clear X1;
  remember (e ("s2"%string, 0%nat)) as s2 eqn:X2; clear X2;
  remember (e ("s3"%string, 0%nat)) as s3 eqn:X3; clear X3;
  remember (e ("s4"%string, 0%nat)) as s4 eqn:X4; clear X4;
  remember (e ("s5"%string, 0%nat)) as s5 eqn:X5; clear X5;
  remember (e ("s6"%string, 0%nat)) as s6 eqn:X6; clear X6;
  remember (e ("s7"%string, 0%nat)) as s7 eqn:X7; clear X7;
  remember (e ("s8"%string, 0%nat)) as s8 eqn:X8; clear X8;
  remember (e ("s9"%string, 0%nat)) as s9 eqn:X9; clear X9;
  remember (e ("s10"%string, 0%nat)) as s10 eqn:X10; clear X10;
  remember (e ("s11"%string, 0%nat)) as s11 eqn:X11; clear X11.

Lemma limbs_total e : Forall (in_itv e) (limb_itvs 12) -> 0 <= ideal e (scal_expr s12names) < 2 ^ 252.
Proof. intro H. limbs H. limb_vars e. lia. Qed.
Lemma top_limb e : Forall (in_itv e) (limb_itvs 11) -> 0 <= ideal e (scal_expr s12names) < L25519 ->
  0 <= e ("s11"%string, 0%nat) < 2 ^ 22.
Proof. intros H V. limbs H. unfold L25519 in V. limb_vars e. lia. Qed.

(** The common end of the two functions: [em] is the state before the last
    fold, [ee] the final state. *)
Lemma reduced em ee : Forall (in_itv em) mid_itvs -> Forall (in_itv ee) end_itvs ->
  ideal ee (scal_expr s12names) = ideal em (Eadd I64 (scal_expr s12names) minus_c) ->
  0 <= ideal ee (scal_expr s12names) < L25519 /\ 0 <= ee ("s11"%string, 0%nat) < 2 ^ 22.
Proof.
  intros M E Q.
  assert (V : 0 <= ideal ee (scal_expr s12names) < L25519).
  { rewrite Q. unfold minus_c. rewrite !ideal_add, !ideal_mul, !ideal_c, !ideal_v.
    pose proof (limbs_total em (Forall_inv_tail M)) as W. pose proof (Forall_inv M) as S12. unfold in_itv in S12. cbn [fst snd] in S12.
    remember (ideal em (scal_expr s12names)) as w eqn:Xw. clear Xw.
    remember (em ("s12"%string, 0%nat)) as t eqn:Xt. clear Xt. unfold L25519. lia. }
  split; [exact V|]. apply top_limb; [exact (Forall_inv_tail E)|exact V].
Qed.

Lemma ScMulAdd_ok a b c : List.length a = 32%nat -> List.length b = 32%nat -> List.length c = 32%nat ->
  List.length (ScMulAdd a b c) = 32%nat /\
  le_value (ScMulAdd a b c) = (le_value a * le_value b + le_value c) mod L25519.
Proof.
  intros La Lb Lc. split; [unfold ScMulAdd; rewrite map_length; reflexivity|]. unfold ScMulAdd.
  remember (with_array (with_array (with_array env0 "a" (map byteZ a)) "b" (map byteZ b)) "c" (map byteZ c)) as e eqn:He.
  assert (Ea : forall i, e ("a"%string, i) = nth i (map byteZ a) 0) by (intro; rewrite He; reflexivity).
  assert (Eb : forall i, e ("b"%string, i) = nth i (map byteZ b) 0) by (intro; rewrite He; reflexivity).
  assert (Ec : forall i, e ("c"%string, i) = nth i (map byteZ c) 0) by (intro; rewrite He; reflexivity). clear He.
  rewrite <- (map_length byteZ) in La, Lb, Lc.
  assert (I : Forall (in_itv e) abc_itvs).
  { unfold abc_itvs. rewrite !Forall_app. split; [|split].
    - exact (byte_itvs_ok e "a" 32 _ La (bytes_isbyte a) Ea).
    - exact (byte_itvs_ok e "b" 32 _ Lb (bytes_isbyte b) Eb).
    - exact (byte_itvs_ok e "c" 32 _ Lc (bytes_isbyte c) Ec). }
  destruct (range_check_sound _ _ _ e ScMulAdd_mid I) as [E1 R1].
  destruct (range_check_sound _ _ _ e ScMulAdd_end I) as [E2 R2].
  rewrite E1 in R1. clear E1. rewrite E2 in R2 |- *. clear E2.
  pose proof (congr_check_sound _ _ _ _ _ ScMulAdd_poly (iexec e ScMulAdd_code1)) as P.
  rewrite <- iexec_app in P. rewrite ideal_add, ideal_mul in P.
  rewrite (ScMulAdd_a e _ La (bytes_isbyte a) Ea), (ScMulAdd_b e _ Lb (bytes_isbyte b) Eb), (ScMulAdd_c e _ Lc (bytes_isbyte c) Ec) in P.
  rewrite !leZ_le_value in P.
  pose proof (congr_check_sound _ _ _ _ _ ScMulAdd_last_poly (iexec e (ScMulAdd_code1 ++ ScMulAdd_code2 ++ ScMulAdd_code3))) as Q.
  rewrite <- iexec_app in Q. rewrite <- !app_assoc in Q. apply Z.divide_0_l in Q.
  remember (iexec e (ScMulAdd_code1 ++ ScMulAdd_code2 ++ ScMulAdd_code3)) as em eqn:Xm. clear Xm.
  remember (iexec e (ScMulAdd_code1 ++ ScMulAdd_code2 ++ ScMulAdd_code3 ++ ScMulAdd_code4 ++ ScMulAdd_code5)) as ee eqn:Xe. clear Xe.
  apply Zminus_eq in Q. destruct (reduced em ee R1 R2 Q) as [V S11].
  rewrite ScMulAdd_pack_ok; [|exact (Forall_inv_tail R2)|exact S11].
  destruct P as [k P]. apply Z.mod_unique with (q := - k); [left; exact V|]. lia.
Qed.
Lemma packs_same : ScReduce_pack = ScMulAdd_pack. Proof. reflexivity. Qed.
Lemma ScReduce_ok s : List.length s = 64%nat ->
  List.length (ScReduce s) = 32%nat /\ le_value (ScReduce s) = le_value s mod L25519.
Proof.
  intros Ls. split; [unfold ScReduce; rewrite map_length; reflexivity|]. unfold ScReduce.
  remember (with_array env0 "s" (map byteZ s)) as e eqn:He.
  assert (Es : forall i, e ("s"%string, i) = nth i (map byteZ s) 0) by (intro; rewrite He; reflexivity). clear He.
  rewrite <- (map_length byteZ) in Ls.
  assert (I : Forall (in_itv e) (byte_itvs "s" 64)) by exact (byte_itvs_ok e "s" 64 _ Ls (bytes_isbyte s) Es).
  destruct (range_check_sound _ _ _ e ScReduce_mid I) as [E1 R1].
  destruct (range_check_sound _ _ _ e ScReduce_end I) as [E2 R2].
  rewrite E1 in R1. clear E1. rewrite E2 in R2 |- *. clear E2.
  pose proof (congr_check_sound _ _ _ _ _ ScReduce_poly (iexec e ScReduce_code1)) as P.
  rewrite <- iexec_app in P. rewrite (ScReduce_s e _ Ls (bytes_isbyte s) Es) in P.
  rewrite !leZ_le_value in P.
  pose proof (congr_check_sound _ _ _ _ _ ScReduce_last_poly (iexec e (ScReduce_code1 ++ ScReduce_code2 ++ ScReduce_code3))) as Q.
  rewrite <- iexec_app in Q. rewrite <- !app_assoc in Q. apply Z.divide_0_l in Q.
  remember (iexec e (ScReduce_code1 ++ ScReduce_code2 ++ ScReduce_code3)) as em eqn:Xm. clear Xm.
  remember (iexec e (ScReduce_code1 ++ ScReduce_code2 ++ ScReduce_code3 ++ ScReduce_code4 ++ ScReduce_code5)) as ee eqn:Xe. clear Xe.
  apply Zminus_eq in Q. destruct (reduced em ee R1 R2 Q) as [V S11].
  rewrite packs_same, ScMulAdd_pack_ok; [|exact (Forall_inv_tail R2)|exact S11].
  destruct P as [k P]. apply Z.mod_unique with (q := - k); [left; exact V|]. lia.
Qed.

(** [ScNeg] *)
Definition neg_step_check (c d : Z) : bool :=
  let x := c + d in
  let n := Z.land x (-2147483648) in
  let n := Z.lor n (Z.shiftr n 16) in let n := Z.lor n (Z.shiftr n 8) in let n := Z.lor n (Z.shiftr n 4) in
  let n := Z.lor n (Z.shiftr n 2) in let n := Z.lor n (Z.shiftr n 1) in
  Z.eqb n (if Z.ltb x 0 then -1 else 0).
Lemma neg_step_all : forallb (fun d => neg_step_check 0 (Z.of_nat d - 256)) (seq 0 512) = true.
Proof. vm_compute. reflexivity. Qed.
Lemma ScNeg_step_ok c l s : (c = 0 \/ c = -1) -> 0 <= l <= 255 -> 0 <= s <= 255 ->
  let x := c + l - s in
  ScNeg_step c l s = (toByte (if Z.ltb x 0 then x + 256 else x), if Z.ltb x 0 then -1 else 0).
Proof.
  intros C Hl Hs x. unfold ScNeg_step.
  rewrite (wrap32_small (c + l)) by lia. rewrite (wrap32_small (c + l - s)) by lia. fold x.
  pose proof neg_step_all as A. rewrite forallb_forall in A.
  specialize (A (Z.to_nat (x + 256)) ltac:(apply in_seq; lia)).
  rewrite Z2Nat.id in A by lia. unfold neg_step_check in A. replace (0 + (x + 256 - 256)) with x in A by lia.
  cbv zeta. apply Z.eqb_eq in A. rewrite A.
  destruct (Z.ltb_spec x 0).
  - change (Z.land (-1) 256) with 256. change (Z.land (-1) (-1)) with (-1). rewrite wrap32_small by lia. reflexivity.
  - change (Z.land 0 256) with 0. change (Z.land 0 (-1)) with 0. rewrite wrap32_small by lia. now rewrite Z.add_0_r.
Qed.
Lemma ScNeg_loop_ok : forall l s c, List.length l = List.length s -> Forall isbyte l -> (c = 0 \/ c = -1) ->
  List.length (ScNeg_loop c l s) = List.length s /\
  exists c', (c' = 0 \/ c' = -1) /\
  le_value (ScNeg_loop c l s) + 256 ^ Z.of_nat (List.length l) * c' = leZ l - le_value s + c.
Proof.
  induction l as [|x l IH]; intros s c Hl B C; destruct s as [|b s]; try discriminate Hl.
  - split; [reflexivity|]. exists c. split; [exact C|]. cbn. destruct C; subst; reflexivity.
  - cbn [ScNeg_loop]. inversion B; subst. pose proof (byteZ_bound b) as Bb.
    rewrite ScNeg_step_ok by assumption. set (y := c + x - byteZ b).
    unfold isbyte in *.
    set (c1 := if Z.ltb y 0 then -1 else 0).
    assert (C1 : c1 = 0 \/ c1 = -1) by (unfold c1; destruct (Z.ltb y 0); auto).
    destruct (IH s c1 ltac:(cbn in Hl; lia) ltac:(assumption) C1) as (L' & c' & C' & V).
    split; [cbn [List.length]; now rewrite L'|].
    exists c'. split; [exact C'|]. cbn [le_value leZ List.length]. rewrite byteZ_toByte.
    rewrite Nat2Z.inj_succ, Z.pow_succ_r by lia.
    assert (Y : (if Z.ltb y 0 then y + 256 else y) mod 256 = y - 256 * c1).
    { unfold c1. destruct (Z.ltb_spec y 0); rewrite Z.mod_small; unfold y in *; lia. }
    rewrite Y. unfold y in *. lia.
Qed.
Lemma ScNeg_l_value : leZ ScNeg_l = L25519. Proof. reflexivity. Qed.
Lemma ScNeg_ok s : List.length s = 32%nat ->
  List.length (ScNeg s) = 32%nat /\ le_value (ScNeg s) = (L25519 - le_value s) mod 2 ^ 256.
Proof.
  intro Ls. destruct (ScNeg_loop_ok ScNeg_l s 0) as (L' & c' & C' & V).
  - rewrite Ls. reflexivity.
  - apply Forall_forall. intros x Hx. unfold isbyte.
    assert (A : forallb (fun x => Z.leb 0 x && Z.leb x 255) ScNeg_l = true) by reflexivity.
    rewrite forallb_forall in A. specialize (A x Hx). apply andb_true_iff in A. rewrite !Z.leb_le in A. exact A.
  - auto.
  - fold (ScNeg s) in *. split; [now rewrite L'|]. rewrite ScNeg_l_value in V.
    pose proof (le_value_bound (ScNeg s)) as B. rewrite L', Ls in B.
    change (256 ^ Z.of_nat (List.length ScNeg_l)) with (2 ^ 256) in V. change (8 * Z.of_nat 32) with 256 in B.
    apply Z.mod_unique with (q := c'); [left; exact B|]. lia.
Qed.
