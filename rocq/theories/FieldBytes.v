(** Proofs about [FeToBytes] and the tests built on it. *)
From Coq Require Import List NArith ZArith Lia Bool Arith String.
From Verif Require Import Base Extra25519 GoInt GoPoly EdCode Field FieldSpec FieldFacts.
Import ListNotations.
Local Open Scope Z_scope.

Definition digit_itvs (a : string) : amap :=
  map (fun i => ((a, i), (0, if Nat.even i then 2 ^ 26 - 1 else 2 ^ 25 - 1))) (seq 0 10).
Lemma FeToBytes_range :
  range_check (fe_itvs 330 "h") (FeToBytes_code1 ++ FeToBytes_code2) (digit_itvs "h") = true.
Proof. vm_compute. reflexivity. Qed.
Lemma FeToBytes_poly :
  congr_check 0 (("q"%string, 0%nat) :: fe_vars "h") FeToBytes_code2
    (Eadd I64 (fe_expr "h") (Emul I64 (Ec (2 ^ 255)) (Ev ("carry"%string, 9%nat))))
    (Eadd I64 (fe_expr "h") (Emul I64 (Ec 19) (Ev ("q"%string, 0%nat)))) = true.
Proof. vm_compute. reflexivity. Qed.

Definition fdiv (x k : Z) : Z := x / 2 ^ k.
Lemma fdiv_itv x k : 0 <= k -> 2 ^ k * fdiv x k <= x < 2 ^ k * fdiv x k + 2 ^ k.
Proof.
  intro H. unfold fdiv. assert (0 < 2 ^ k) by (apply Z.pow_pos_nonneg; lia).
  pose proof (Z.div_mod x (2 ^ k) ltac:(lia)). pose proof (Z.mod_pos_bound x (2 ^ k) ltac:(lia)). lia.
Qed.

(** The quotient computed by the first loop *)
Lemma FeToBytes_quot e h : fe_bound 330 h -> (forall i, e ("h"%string, i) = nth i h 0) ->
  let q := iexec e FeToBytes_code1 ("q"%string, 0%nat) in
  0 <= fe_value h - q * p25519 < p25519.
Proof.
  intros [_ B] E q.
  assert (Q : q = fdiv (nth 9 h 0 + fdiv (nth 8 h 0 + fdiv (nth 7 h 0 + fdiv (nth 6 h 0 +
     fdiv (nth 5 h 0 + fdiv (nth 4 h 0 + fdiv (nth 3 h 0 + fdiv (nth 2 h 0 +
     fdiv (nth 1 h 0 + fdiv (nth 0 h 0 + fdiv (19 * nth 9 h 0 + 16777216) 25)
       26) 25) 26) 25) 26) 25) 26) 25) 26) 25).
  { unfold q. rewrite <- !E. lazy -[Z.add Z.mul Z.div Z.pow]. reflexivity. }
  clearbody q. clear E.
  pose proof (B 0%nat ltac:(lia)) as B0. pose proof (B 1%nat ltac:(lia)) as B1.
  pose proof (B 2%nat ltac:(lia)) as B2. pose proof (B 3%nat ltac:(lia)) as B3.
  pose proof (B 4%nat ltac:(lia)) as B4. pose proof (B 5%nat ltac:(lia)) as B5.
  pose proof (B 6%nat ltac:(lia)) as B6. pose proof (B 7%nat ltac:(lia)) as B7.
  pose proof (B 8%nat ltac:(lia)) as B8. pose proof (B 9%nat ltac:(lia)) as B9. clear B.
  cbn [Nat.even] in B0, B1, B2, B3, B4, B5, B6, B7, B8, B9.
  unfold fe_value, p25519.
  set (h0 := nth 0 h 0) in *. set (h1 := nth 1 h 0) in *. set (h2 := nth 2 h 0) in *. set (h3 := nth 3 h 0) in *.
  set (h4 := nth 4 h 0) in *. set (h5 := nth 5 h 0) in *. set (h6 := nth 6 h 0) in *. set (h7 := nth 7 h 0) in *.
  set (h8 := nth 8 h 0) in *. set (h9 := nth 9 h 0) in *. clearbody h0 h1 h2 h3 h4 h5 h6 h7 h8 h9.
  set (q0 := fdiv (19 * h9 + 16777216) 25) in Q.
  pose proof (fdiv_itv (19 * h9 + 16777216) 25 ltac:(lia)) as I. fold q0 in I. clearbody q0.
  set (q1 := fdiv (h0 + q0) 26) in Q. pose proof (fdiv_itv (h0 + q0) 26 ltac:(lia)) as I0. fold q1 in I0. clearbody q1.
  set (q2 := fdiv (h1 + q1) 25) in Q. pose proof (fdiv_itv (h1 + q1) 25 ltac:(lia)) as I1. fold q2 in I1. clearbody q2.
  set (q3 := fdiv (h2 + q2) 26) in Q. pose proof (fdiv_itv (h2 + q2) 26 ltac:(lia)) as I2. fold q3 in I2. clearbody q3.
  set (q4 := fdiv (h3 + q3) 25) in Q. pose proof (fdiv_itv (h3 + q3) 25 ltac:(lia)) as I3. fold q4 in I3. clearbody q4.
  set (q5 := fdiv (h4 + q4) 26) in Q. pose proof (fdiv_itv (h4 + q4) 26 ltac:(lia)) as I4. fold q5 in I4. clearbody q5.
  set (q6 := fdiv (h5 + q5) 25) in Q. pose proof (fdiv_itv (h5 + q5) 25 ltac:(lia)) as I5. fold q6 in I5. clearbody q6.
  set (q7 := fdiv (h6 + q6) 26) in Q. pose proof (fdiv_itv (h6 + q6) 26 ltac:(lia)) as I6. fold q7 in I6. clearbody q7.
  set (q8 := fdiv (h7 + q7) 25) in Q. pose proof (fdiv_itv (h7 + q7) 25 ltac:(lia)) as I7. fold q8 in I7. clearbody q8.
  set (q9 := fdiv (h8 + q8) 26) in Q. pose proof (fdiv_itv (h8 + q8) 26 ltac:(lia)) as I8. fold q9 in I8. clearbody q9.
  pose proof (fdiv_itv (h9 + q9) 25 ltac:(lia)) as I9. rewrite <- Q in I9. clear Q.
  assert (V : 2 ^ 255 * q <= h0 + 2^26 * h1 + 2^51 * h2 + 2^77 * h3 + 2^102 * h4 + 2^128 * h5 + 2^153 * h6 +
                2^179 * h7 + 2^204 * h8 + 2^230 * h9 + q0 < 2 ^ 255 * q + 2 ^ 255) by lia.
  clear I0 I1 I2 I3 I4 I5 I6 I7 I8 I9.
  remember (h0 + 2^26 * h1 + 2^51 * h2 + 2^77 * h3 + 2^102 * h4 + 2^128 * h5 + 2^153 * h6 +
                2^179 * h7 + 2^204 * h8) as lo eqn:Hlo.
  assert (W : - (10 * 2 ^ 230) <= lo <= 10 * 2 ^ 230).
  { rewrite Hlo. clear - B0 B1 B2 B3 B4 B5 B6 B7 B8.
    assert (B0b : Z.abs h0 <= 2^27) by lia. assert (B1b : Z.abs h1 <= 2^26) by lia. assert (B2b : Z.abs h2 <= 2^27) by lia.
    assert (B3b : Z.abs h3 <= 2^26) by lia. assert (B4b : Z.abs h4 <= 2^27) by lia. assert (B5b : Z.abs h5 <= 2^26) by lia.
    assert (B6b : Z.abs h6 <= 2^27) by lia. assert (B7b : Z.abs h7 <= 2^26) by lia. assert (B8b : Z.abs h8 <= 2^27) by lia.
    clear B0 B1 B2 B3 B4 B5 B6 B7 B8.
    apply Z.abs_le in B0b, B1b, B2b, B3b, B4b, B5b, B6b, B7b, B8b. lia. }
  clear - W B9 I V. lia.
Qed.

(** Arrays that a program does not assign *)
Lemma iexec_frame a p : forallb (fun s => negb (String.eqb (fst (fst s)) a)) p = true ->
  forall e i, iexec e p (a, i) = e (a, i).
Proof.
  unfold iexec. induction p as [|s p IH]; intros H e i; [reflexivity|].
  cbn [forallb] in H. apply andb_true_iff in H. destruct H as [H1 H2].
  cbn [fold_left]. rewrite IH by exact H2. apply upd_other. intro Q. destruct s as [[b j] x]. cbn [fst snd] in *.
  injection Q as -> _. now rewrite String.eqb_refl in H1.
Qed.
Lemma array_nth e a n i : (i < n)%nat -> nth i (array e a n) 0 = e (a, i).
Proof.
  intro H. unfold array. rewrite nth_indep with (d' := e (a, 0%nat)) by (rewrite map_length, seq_length; lia).
  rewrite (map_nth (fun i => e (a, i))), seq_nth by lia. reflexivity.
Qed.
Lemma digits_value_bound f : List.length f = 10%nat ->
  (forall i, (i < 10)%nat -> 0 <= nth i f 0 < (if Nat.even i then 2 ^ 26 else 2 ^ 25)) ->
  fe_bound 200 f /\ 0 <= fe_value f < 2 ^ 255.
Proof.
  intros L B. split.
  - split; [exact L|]. intros i Hi. specialize (B i Hi). destruct (Nat.even i); lia.
  - unfold fe_value.
    pose proof (B 0%nat ltac:(lia)) as B0. pose proof (B 1%nat ltac:(lia)) as B1.
    pose proof (B 2%nat ltac:(lia)) as B2. pose proof (B 3%nat ltac:(lia)) as B3.
    pose proof (B 4%nat ltac:(lia)) as B4. pose proof (B 5%nat ltac:(lia)) as B5.
    pose proof (B 6%nat ltac:(lia)) as B6. pose proof (B 7%nat ltac:(lia)) as B7.
    pose proof (B 8%nat ltac:(lia)) as B8. pose proof (B 9%nat ltac:(lia)) as B9. clear B.
    cbn [Nat.even] in B0, B1, B2, B3, B4, B5, B6, B7, B8, B9. lia.
Qed.

Lemma ideal_add e t a b : ideal e (Eadd t a b) = ideal e a + ideal e b. Proof. reflexivity. Qed.
Lemma ideal_mul e t a b : ideal e (Emul t a b) = ideal e a * ideal e b. Proof. reflexivity. Qed.
Lemma ideal_c e z : ideal e (Ec z) = z. Proof. reflexivity. Qed.
Lemma ideal_v e x : ideal e (Ev x) = e x. Proof. reflexivity. Qed.
Lemma FeToBytes_reduce e1 h : List.length h = 10%nat -> (forall i, e1 ("h"%string, i) = nth i h 0) ->
  0 <= fe_value h - e1 ("q"%string, 0%nat) * p25519 < p25519 ->
  0 <= fe_value (array (iexec e1 FeToBytes_code2) "h" 10) < 2 ^ 255 ->
  fe_value (array (iexec e1 FeToBytes_code2) "h" 10) = fe_value h mod p25519.
Proof.
  intros L Eh Q V2.
  pose proof (congr_check_sound _ _ _ _ _ FeToBytes_poly e1) as P.
  apply Z.divide_0_l in P.
  remember (iexec e1 FeToBytes_code2) as e2 eqn:X2. clear X2.
  rewrite !ideal_add, !ideal_mul, !ideal_c, !ideal_v in P. rewrite fe_expr_value, (fe_expr_list e1 "h" h Eh) in P.
  remember (fe_value (array e2 "h" 10)) as v eqn:X3. clear X3.
  remember (e2 ("carry"%string, 9%nat)) as c eqn:X4. clear X4.
  remember (e1 ("q"%string, 0%nat)) as q eqn:X5. clear X5.
  apply Z.mod_unique with (q := q); [left; unfold p25519 in *; lia|]. 
  unfold p25519 in *. lia.
Qed.

(** [FeToBytes]: the canonical little-endian encoding.  Its argument is left
    with the same field value, reduced. *)
Lemma FeToBytes_ok h : fe_bound 330 h ->
  List.length (fst (FeToBytes h)) = 32%nat /\
  le_value (fst (FeToBytes h)) = fe_value h mod p25519 /\
  fe_bound 200 (snd (FeToBytes h)) /\ fe_value (snd (FeToBytes h)) = fe_value h mod p25519.
Proof.
  intro B. unfold FeToBytes. remember (with_array env0 "h" h) as e eqn:He.
  assert (Eh : forall i, e ("h"%string, i) = nth i h 0) by (intro; rewrite He; apply with_array_same). clear He.
  destruct (range_check_sound _ _ _ e FeToBytes_range (fe_bound_itv _ _ _ _ B Eh)) as [E R].
  rewrite iexec_app in E. rewrite E in R |- *. clear E.
  pose proof (FeToBytes_quot e h B Eh) as Q. cbv zeta in Q.
  assert (Eh1 : forall i, iexec e FeToBytes_code1 ("h"%string, i) = nth i h 0).
  { intro i. rewrite <- Eh. apply iexec_frame. reflexivity. }
  remember (iexec e FeToBytes_code1) as e1 eqn:X1. clear X1.
  pose proof (FeToBytes_reduce e1 h (proj1 B) Eh1 Q) as V.
  remember (iexec e1 FeToBytes_code2) as e2 eqn:X2. clear X2. cbn [fst snd].
  assert (D : forall i, (i < 10)%nat -> 0 <= e2 ("h"%string, i) < (if Nat.even i then 2 ^ 26 else 2 ^ 25)).
  { intros i Hi. unfold digit_itvs in R. rewrite Forall_map, Forall_forall in R. specialize (R i ltac:(apply in_seq; lia)).
    unfold in_itv in R. cbn [fst snd] in R. destruct (Nat.even i); lia. }
  destruct (digits_value_bound (array e2 "h" 10)) as [B2 V2].
  { reflexivity. }
  { intros i Hi. rewrite array_nth by exact Hi. apply D, Hi. }
  specialize (V V2).
  split; [rewrite map_length; reflexivity|]. split; [|split; [exact B2|exact V]].
  rewrite FeToBytes_pack_ok by exact D. exact V.
Qed.

Lemma FeIsNegative_ok h : fe_bound 330 h ->
  fst (FeIsNegative h) = (fe_value h mod p25519) mod 2 /\
  fe_bound 200 (snd (FeIsNegative h)) /\ fe_value (snd (FeIsNegative h)) = fe_value h mod p25519.
Proof.
  intro B. destruct (FeToBytes_ok h B) as (L & V & B' & V'). unfold FeIsNegative.
  destruct (FeToBytes h) as [s f']. cbn [fst snd] in *. repeat split; try assumption; try apply B'.
  rewrite <- V. destruct s as [|b s]; [discriminate L|]. cbn [nth le_value].
  change 1 with (Z.ones 1). rewrite Z.land_ones by lia. change (2 ^ 1) with 2.
  rewrite Zplus_mod. replace (256 * le_value s) with (128 * le_value s * 2) by ring. rewrite Z.mod_mul by lia.
  rewrite Z.add_0_r. now rewrite Z.mod_mod by lia.
Qed.

Lemma fold_lor (s : bytes) : forall x, fold_left (fun x b => Z.lor x (byteZ b)) s x = Z.lor x (fold_left (fun x b => Z.lor x (byteZ b)) s 0).
Proof.
  induction s as [|b s IH]; intro x; cbn [fold_left]; [now rewrite Z.lor_0_r|].
  rewrite IH. rewrite (IH (Z.lor 0 (byteZ b))). now rewrite Z.lor_0_l, Z.lor_assoc.
Qed.
Lemma or_bytes_bound (s : bytes) : 0 <= fold_left (fun x b => Z.lor x (byteZ b)) s 0 < 2 ^ 8.
Proof.
  induction s as [|b s IH]; cbn [fold_left]; [lia|]. rewrite fold_lor, Z.lor_0_l.
  set (y := fold_left _ s 0) in *. pose proof (byteZ_bound b) as Bb. unfold isbyte in Bb.
  assert (N : 0 <= Z.lor (byteZ b) y) by (apply Z.lor_nonneg; lia). split; [exact N|].
  rewrite <- (Z.mod_small (byteZ b) (2 ^ 8)) by lia. rewrite <- (Z.mod_small y (2 ^ 8)) by lia.
  rewrite <- !Z.land_ones by lia. rewrite <- Z.land_lor_distr_l, Z.land_ones by lia. apply Z.mod_pos_bound. lia.
Qed.
Lemma le_value_bound (s : bytes) : 0 <= le_value s < 2 ^ (8 * Z.of_nat (List.length s)).
Proof.
  rewrite <- leZ_le_value, <- pow256. rewrite <- (map_length byteZ s). apply leZ_bound, bytes_isbyte.
Qed.
Lemma or_bytes_zero (s : bytes) : fold_left (fun x b => Z.lor x (byteZ b)) s 0 = 0 <-> le_value s = 0.
Proof.
  induction s as [|b s IH]; cbn [fold_left le_value]; [tauto|]. rewrite fold_lor, Z.lor_0_l.
  rewrite Z.lor_eq_0_iff, IH. pose proof (byteZ_bound b). pose proof (le_value_bound s). lia.
Qed.
(** the final folding of a byte to one bit *)
Definition fold_bit (x : Z) : Z :=
  let x := Z.lor x (Z.shiftr x 4) in let x := Z.lor x (Z.shiftr x 2) in let x := Z.lor x (Z.shiftr x 1) in Z.land x 1.
Lemma fold_bit_all : forallb (fun n => Z.eqb (fold_bit (Z.of_nat n)) (if Nat.eqb n 0 then 0 else 1)) (seq 0 256) = true.
Proof. vm_compute. reflexivity. Qed.
Lemma fold_bit_ok x : 0 <= x < 2 ^ 8 -> fold_bit x = if Z.eqb x 0 then 0 else 1.
Proof.
  intro H. pose proof fold_bit_all as F. rewrite forallb_forall in F.
  specialize (F (Z.to_nat x) ltac:(apply in_seq; lia)). rewrite Z2Nat.id in F by lia. apply Z.eqb_eq in F. rewrite F.
  destruct (Nat.eqb_spec (Z.to_nat x) 0), (Z.eqb_spec x 0); lia.
Qed.
Lemma FeIsNonZero_ok h : fe_bound 330 h ->
  fst (FeIsNonZero h) = (if Z.eqb (fe_value h mod p25519) 0 then 0 else 1) /\
  fe_bound 200 (snd (FeIsNonZero h)) /\ fe_value (snd (FeIsNonZero h)) = fe_value h mod p25519.
Proof.
  intro B. destruct (FeToBytes_ok h B) as (L & V & B' & V'). unfold FeIsNonZero.
  destruct (FeToBytes h) as [s f']. cbn [fst snd] in *. repeat split; try assumption; try apply B'.
  rewrite <- V. set (x := fold_left _ s 0). change (fold_bit x = if le_value s =? 0 then 0 else 1).
  rewrite fold_bit_ok by apply or_bytes_bound. pose proof (or_bytes_zero s) as Z0. fold x in Z0.
  destruct (Z.eqb_spec x 0), (Z.eqb_spec (le_value s) 0); tauto.
Qed.
