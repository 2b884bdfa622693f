(** Proofs about the field arithmetic. *)
From Coq Require Import List NArith ZArith Lia Bool Arith String.
From Verif Require Import Base Extra25519 GoInt GoPoly EdCode Field FieldSpec.
Import ListNotations.
Local Open Scope Z_scope.

(** ** Using the analyses *)
Definition range_check (m : amap) (p : prog) (outs : amap) : bool :=
  match analyze m [] p with
  | Some m' => forallb (fun o => match aget m' (fst o) with
                                 | Some (l, h) => Z.leb (fst (snd o)) l && Z.leb h (snd (snd o))
                                 | None => false end) outs
  | None => false
  end.
Definition in_itv (e : env) (o : var * itv) : Prop := fst (snd o) <= e (fst o) <= snd (snd o).

Lemma bounded_forall m e : Forall (in_itv e) m -> bounded m e.
Proof.
  induction 1 as [|[x [l h]] m H _ IH]; intros y a b G; cbn [aget] in G; [discriminate G|].
  destruct (var_eqb x y) eqn:E.
  - apply var_eqb_true in E. inversion G; subst. exact H.
  - now apply IH.
Qed.
Lemma range_check_sound m p outs e : range_check m p outs = true -> Forall (in_itv e) m ->
  exec e p = iexec e p /\ Forall (in_itv (exec e p)) outs.
Proof.
  unfold range_check. intros H B. destruct (analyze m [] p) as [m'|] eqn:A; [|discriminate H].
  destruct (analyze_sound p m [] e m' (bounded_forall _ _ B) ltac:(constructor) ltac:(constructor) A) as [E B'].
  split; [exact E|]. rewrite E. apply Forall_forall. intros [x [a b]] Ho. rewrite forallb_forall in H. specialize (H _ Ho). cbn [fst snd] in H.
  match type of H with match ?t with _ => _ end = _ => destruct t as [[l h]|] eqn:G; [|discriminate H] end.
  apply andb_true_iff in H. rewrite !Z.leb_le in H. specialize (B' _ _ _ G). unfold in_itv. cbn [fst snd]. lia.
Qed.
Lemma exec_app e p q : exec e (p ++ q) = exec (exec e p) q.
Proof. unfold exec. apply fold_left_app. Qed.
Lemma iexec_app e p q : iexec e (p ++ q) = iexec (iexec e p) q.
Proof. unfold iexec. apply fold_left_app. Qed.

(** ** Limbs *)
Definition limb_max (k : Z) (i : nat) : Z := k * (if Nat.even i then 2 ^ 25 else 2 ^ 24) / 100.
Definition fe_itvs (k : Z) (a : string) : amap :=
  map (fun i => ((a, i), (- limb_max k i, limb_max k i))) (seq 0 10).
Definition fe_vars (a : string) : list var := map (fun i => (a, i)) (seq 0 10).
Definition fe_expr (a : string) : expr :=
  fold_left (fun x iw => Eadd I64 x (Emul I64 (Ec (snd iw)) (Ev (a, fst iw))))
    [(1%nat, 2^26); (2%nat, 2^51); (3%nat, 2^77); (4%nat, 2^102); (5%nat, 2^128); (6%nat, 2^153); (7%nat, 2^179); (8%nat, 2^204); (9%nat, 2^230)]
    (Ev (a, 0%nat)).

Lemma fe_bound_itv k f e a : fe_bound k f -> (forall i, e (a, i) = nth i f 0) -> Forall (in_itv e) (fe_itvs k a).
Proof.
  intros [_ B] E. unfold fe_itvs. apply Forall_map, Forall_forall. intros i Hi. apply in_seq in Hi.
  unfold in_itv. cbn [fst snd]. rewrite E. specialize (B i ltac:(lia)). unfold limb_max.
  set (t := k * _) in *. pose proof (Z.div_mod t 100 ltac:(lia)). pose proof (Z.mod_pos_bound t 100 ltac:(lia)). lia.
Qed.
Lemma fe_itv_bound k e a : Forall (in_itv e) (fe_itvs k a) -> fe_bound k (array e a 10).
Proof.
  intro H. split; [reflexivity|]. intros i Hi. unfold fe_itvs in H. rewrite Forall_map, Forall_forall in H.
  specialize (H i ltac:(apply in_seq; lia)). unfold in_itv in H. cbn [fst snd] in H.
  assert (N : nth i (array e a 10) 0 = e (a, i)).
  { unfold array. rewrite nth_indep with (d' := e (a, 0%nat)) by (rewrite map_length, seq_length; lia).
    rewrite (map_nth (fun i => e (a, i))), seq_nth by lia. reflexivity. }
  rewrite N. unfold limb_max in H. set (t := k * _) in *.
  pose proof (Z.div_mod t 100 ltac:(lia)). pose proof (Z.mod_pos_bound t 100 ltac:(lia)). lia.
Qed.
Lemma fe_expr_value e a : ideal e (fe_expr a) = fe_value (array e a 10).
Proof. unfold fe_expr, fe_value, array. cbn [fold_left fst snd ideal map seq nth]. ring. Qed.
Lemma fe_expr_list e a f : (forall i, e (a, i) = nth i f 0) -> ideal e (fe_expr a) = fe_value f.
Proof. intro E. unfold fe_expr, fe_value. cbn [fold_left fst snd ideal]. rewrite !E. ring. Qed.
Lemma with_array_same e a l i : with_array e a l (a, i) = nth i l 0.
Proof. unfold with_array. cbn [fst snd]. now rewrite String.eqb_refl. Qed.

(** ** Multiplication *)
Lemma FeMul_range : range_check (fe_itvs 330 "f" ++ fe_itvs 330 "g") FeMul_code (fe_itvs 101 "h") = true.
Proof. vm_compute. reflexivity. Qed.
Lemma FeMul_poly :
  congr_check p25519 (fe_vars "f" ++ fe_vars "g") FeMul_code (fe_expr "h") (Emul I64 (fe_expr "f") (fe_expr "g")) = true.
Proof. vm_compute. reflexivity. Qed.

Lemma FeMul_ok f g : fe_bound 330 f -> fe_bound 330 g ->
  fe_bound 101 (FeMul f g) /\ eqp (fe_value (FeMul f g)) (fe_value f * fe_value g).
Proof.
  intros Bf Bg. unfold FeMul. set (e := with_array (with_array env0 "f" f) "g" g).
  assert (Ef : forall i, e ("f"%string, i) = nth i f 0) by (intro; reflexivity).
  assert (Eg : forall i, e ("g"%string, i) = nth i g 0) by (intro; reflexivity).
  destruct (range_check_sound _ _ _ e FeMul_range) as [E R].
  { apply Forall_app. split; [exact (fe_bound_itv _ _ _ _ Bf Ef) | exact (fe_bound_itv _ _ _ _ Bg Eg)]. }
  split; [now apply fe_itv_bound|].
  pose proof (congr_check_sound _ _ _ _ _ FeMul_poly e) as Q.
  rewrite <- E, fe_expr_value in Q. cbn [ideal] in Q. rewrite (fe_expr_list e "f" f Ef), (fe_expr_list e "g" g Eg) in Q.
  exact Q.
Qed.

Lemma FeSquare_range : range_check (fe_itvs 330 "f") FeSquare_code (fe_itvs 101 "h") = true.
Proof. vm_compute. reflexivity. Qed.
Lemma FeSquare_poly :
  congr_check p25519 (fe_vars "f") FeSquare_code (fe_expr "h") (Emul I64 (fe_expr "f") (fe_expr "f")) = true.
Proof. vm_compute. reflexivity. Qed.
Lemma FeSquare_ok f : fe_bound 330 f ->
  fe_bound 101 (FeSquare f) /\ eqp (fe_value (FeSquare f)) (fe_value f * fe_value f).
Proof.
  intros Bf. unfold FeSquare. set (e := with_array env0 "f" f).
  assert (Ef : forall i, e ("f"%string, i) = nth i f 0) by (intro; reflexivity).
  destruct (range_check_sound _ _ _ e FeSquare_range) as [E R].
  { exact (fe_bound_itv _ _ _ _ Bf Ef). }
  split; [now apply fe_itv_bound|].
  pose proof (congr_check_sound _ _ _ _ _ FeSquare_poly e) as Q.
  rewrite <- E, fe_expr_value in Q. cbn [ideal] in Q. rewrite (fe_expr_list e "f" f Ef) in Q. exact Q.
Qed.

Lemma FeSquare2_range : range_check (fe_itvs 330 "f") FeSquare2_code (fe_itvs 101 "h") = true.
Proof. vm_compute. reflexivity. Qed.
Lemma FeSquare2_poly :
  congr_check p25519 (fe_vars "f") FeSquare2_code (fe_expr "h") (Emul I64 (Ec 2) (Emul I64 (fe_expr "f") (fe_expr "f"))) = true.
Proof. vm_compute. reflexivity. Qed.
Lemma FeSquare2_ok f : fe_bound 330 f ->
  fe_bound 101 (FeSquare2 f) /\ eqp (fe_value (FeSquare2 f)) (2 * (fe_value f * fe_value f)).
Proof.
  intros Bf. unfold FeSquare2. set (e := with_array env0 "f" f).
  assert (Ef : forall i, e ("f"%string, i) = nth i f 0) by (intro; reflexivity).
  destruct (range_check_sound _ _ _ e FeSquare2_range) as [E R].
  { exact (fe_bound_itv _ _ _ _ Bf Ef). }
  split; [now apply fe_itv_bound|].
  pose proof (congr_check_sound _ _ _ _ _ FeSquare2_poly e) as Q.
  rewrite <- E, fe_expr_value in Q. cbn [ideal] in Q. rewrite (fe_expr_list e "f" f Ef) in Q. exact Q.
Qed.

(** ** Addition, subtraction, negation, conditional move *)
Lemma length10 {A} (f : list A) : List.length f = 10%nat ->
  exists a0 a1 a2 a3 a4 a5 a6 a7 a8 a9, f = [a0; a1; a2; a3; a4; a5; a6; a7; a8; a9].
Proof.
  intro H. do 10 (destruct f as [|? f]; [discriminate H|]). destruct f; [|discriminate H].
  repeat eexists.
Qed.
Lemma map2_nth {A} (f : A -> A -> Z) a b d i : List.length a = List.length b -> (i < List.length a)%nat ->
  nth i (map2 f a b) 0 = f (nth i a d) (nth i b d).
Proof.
  intros L H. unfold map2.
  rewrite nth_indep with (d' := f d d) by (now rewrite map_length, combine_length, <- L, Nat.min_id).
  rewrite (map_nth (fun p => f (fst p) (snd p)) (combine a b) (d, d)), combine_nth by exact L. reflexivity.
Qed.
Lemma map2_length {A} (f : A -> A -> Z) a b : List.length a = List.length b -> List.length (map2 f a b) = List.length a.
Proof. intro L. unfold map2. now rewrite map_length, combine_length, <- L, Nat.min_id. Qed.

Lemma wrap32_small z : -2147483648 <= z <= 2147483647 -> wrap I32 z = z.
Proof. intro H. apply (wrap_fits I32 z (-2147483648) 2147483647); [reflexivity|exact H]. Qed.

(** Limb-wise int32 operations without overflow *)
Lemma pow25 : 2 ^ 25 = 33554432. Proof. reflexivity. Qed.
Lemma pow24 : 2 ^ 24 = 16777216. Proof. reflexivity. Qed.

Lemma FeAdd_ok j k a b : 0 <= j -> 0 <= k -> j + k <= 6000 -> fe_bound j a -> fe_bound k b ->
  fe_bound (j + k) (FeAdd a b) /\ fe_value (FeAdd a b) = fe_value a + fe_value b.
Proof.
  intros J K L [La Ba] [Lb Bb].
  assert (Q : forall i, (i < 10)%nat -> nth i (FeAdd a b) 0 = nth i a 0 + nth i b 0).
  { intros i Hi. unfold FeAdd. rewrite map2_nth with (d := 0) by lia. apply wrap32_small.
    specialize (Ba i Hi). specialize (Bb i Hi). destruct (Nat.even i); rewrite ?pow25, ?pow24 in Ba, Bb; lia. }
  split.
  - split; [unfold FeAdd; rewrite map2_length; lia|]. intros i Hi. rewrite Q by exact Hi.
    specialize (Ba i Hi). specialize (Bb i Hi). destruct (Nat.even i); lia.
  - unfold fe_value. rewrite !Q by lia. ring.
Qed.
Lemma FeSub_ok j k a b : 0 <= j -> 0 <= k -> j + k <= 6000 -> fe_bound j a -> fe_bound k b ->
  fe_bound (j + k) (FeSub a b) /\ fe_value (FeSub a b) = fe_value a - fe_value b.
Proof.
  intros J K L [La Ba] [Lb Bb].
  assert (Q : forall i, (i < 10)%nat -> nth i (FeSub a b) 0 = nth i a 0 - nth i b 0).
  { intros i Hi. unfold FeSub. rewrite map2_nth with (d := 0) by lia. apply wrap32_small.
    specialize (Ba i Hi). specialize (Bb i Hi). destruct (Nat.even i); rewrite ?pow25, ?pow24 in Ba, Bb; lia. }
  split.
  - split; [unfold FeSub; rewrite map2_length; lia|]. intros i Hi. rewrite Q by exact Hi.
    specialize (Ba i Hi). specialize (Bb i Hi). destruct (Nat.even i); lia.
  - unfold fe_value. rewrite !Q by lia. ring.
Qed.
Lemma FeNeg_ok k a : 0 <= k <= 6000 -> fe_bound k a ->
  fe_bound k (FeNeg a) /\ fe_value (FeNeg a) = - fe_value a.
Proof.
  intros K [La Ba].
  assert (Q : forall i, (i < 10)%nat -> nth i (FeNeg a) 0 = - nth i a 0).
  { intros i Hi. unfold FeNeg. rewrite nth_indep with (d' := wrap I32 (- 0)) by (rewrite map_length; lia).
    rewrite (map_nth (fun x => wrap I32 (- x))). apply wrap32_small.
    specialize (Ba i Hi). destruct (Nat.even i); rewrite ?pow25, ?pow24 in Ba; lia. }
  split.
  - split; [unfold FeNeg; rewrite map_length; lia|]. intros i Hi. rewrite Q by exact Hi. rewrite Z.abs_opp. now apply Ba.
  - unfold fe_value. rewrite !Q by lia. ring.
Qed.

Lemma nth_ext10 (a b : fe) : List.length a = 10%nat -> List.length b = 10%nat ->
  (forall i, (i < 10)%nat -> nth i a 0 = nth i b 0) -> a = b.
Proof. intros La Lb H. apply nth_ext with (d := 0) (d' := 0); [lia|]. intros i Hi. apply H. lia. Qed.
Lemma FeCMove_ok f g b : List.length f = 10%nat -> List.length g = 10%nat -> (b = 0 \/ b = 1) ->
  FeCMove f g b = if Z.eqb b 1 then g else f.
Proof.
  intros Lf Lg Hb. apply nth_ext10.
  - unfold FeCMove. rewrite map2_length; lia.
  - destruct (Z.eqb b 1); assumption.
  - intros i Hi. unfold FeCMove. rewrite map2_nth with (d := 0) by lia. destruct Hb as [-> | ->].
    + change (wrap I32 (- 0)) with 0. rewrite Z.land_0_l. now rewrite Z.lxor_0_r.
    + change (wrap I32 (- (1))) with (-1). rewrite Z.land_m1_l, <- Z.lxor_assoc, Z.lxor_nilpotent. apply Z.lxor_0_l.
Qed.

Lemma fe_zero_ok : fe_bound 0 FeZero /\ fe_value FeZero = 0.
Proof.
  split; [split; [reflexivity|]|reflexivity]. intros i Hi.
  do 10 (destruct i as [|i]; [cbn; lia|]). lia.
Qed.
Lemma fe_one_ok : fe_bound 1 FeOne /\ fe_value FeOne = 1.
Proof.
  split; [split; [reflexivity|]|reflexivity]. intros i Hi.
  do 10 (destruct i as [|i]; [cbn; lia|]). lia.
Qed.
Lemma fe_bound_mono j k f : j <= k -> fe_bound j f -> fe_bound k f.
Proof.
  intros L [Lf B]. split; [exact Lf|]. intros i Hi. specialize (B i Hi). destruct (Nat.even i); lia.
Qed.

(** ** Reading bytes *)
Definition isbyte (x : Z) : Prop := 0 <= x <= 255.
Lemma pow256 n : 256 ^ Z.of_nat n = 2 ^ (8 * Z.of_nat n).
Proof. change 256 with (2 ^ 8). rewrite <- Z.pow_mul_r by lia. reflexivity. Qed.
Lemma seq_slice (b : list Z) off n : (off + n <= List.length b)%nat ->
  map (fun i => nth (off + i) b 0) (seq 0 n) = firstn n (skipn off b).
Proof.
  revert off. induction n as [|n IH]; intros off H; [reflexivity|].
  cbn [seq map]. rewrite Nat.add_0_r, <- seq_shift, map_map.
  rewrite map_ext with (g := fun i => nth (S off + i) b 0) by (intro; f_equal; lia).
  rewrite IH by lia.
  assert (E : skipn off b = nth off b 0 :: skipn (S off) b).
  { clear -H. revert off H. induction b as [|x b IH]; intros off H; cbn in H; [lia|].
    destruct off; [reflexivity|]. cbn [skipn nth]. rewrite <- IH by lia. destruct b; reflexivity. }
  rewrite E. reflexivity.
Qed.
Lemma load_slice b off n : Forall isbyte b -> (off + n <= List.length b)%nat -> (0 < n)%nat ->
  load (fun i => nth (off + i) b 0) n = (leZ b / 2 ^ (8 * Z.of_nat off)) mod 2 ^ (8 * Z.of_nat n).
Proof.
  intros B H P. rewrite load_le; [|intros i Hi; rewrite Forall_forall in B; apply B, nth_In; lia|exact P].
  rewrite seq_slice by exact H.
  rewrite <- (firstn_skipn off b) at 2. rewrite leZ_app.
  rewrite <- (firstn_skipn n (skipn off b)) at 2. rewrite leZ_app.
  rewrite !firstn_length, skipn_length. rewrite !Nat.min_l by lia.
  rewrite <- !pow256.
  assert (B1 : 0 <= leZ (firstn off b) < 256 ^ Z.of_nat off).
  { replace (Z.of_nat off) with (Z.of_nat (List.length (firstn off b))) by (rewrite firstn_length; lia).
    apply leZ_bound. apply Forall_forall. intros x Hx. rewrite Forall_forall in B. apply B.
    rewrite <- (firstn_skipn off b). apply in_or_app. auto. }
  assert (B2 : 0 <= leZ (firstn n (skipn off b)) < 256 ^ Z.of_nat n).
  { replace (Z.of_nat n) with (Z.of_nat (List.length (firstn n (skipn off b)))) by (rewrite firstn_length, skipn_length; lia).
    apply leZ_bound. apply Forall_forall. intros x Hx. rewrite Forall_forall in B. apply B.
    rewrite <- (firstn_skipn off b). apply in_or_app. right.
    rewrite <- (firstn_skipn n (skipn off b)). apply in_or_app. auto. }
  set (P1 := 256 ^ Z.of_nat off) in *. set (P2 := 256 ^ Z.of_nat n) in *.
  rewrite Z.mul_comm, Z.div_add by lia. rewrite Z.div_small by lia. cbn [Z.add].
  rewrite Z.mul_comm, Z.mod_add by lia. symmetry. now apply Z.mod_small.
Qed.
Lemma leZ_le_value b : leZ (map byteZ b) = le_value b.
Proof. induction b; cbn [map leZ le_value]; congruence. Qed.
Lemma bytes_isbyte b : Forall isbyte (map byteZ b).
Proof. apply Forall_map, Forall_forall. intros x _. apply byteZ_bound. Qed.

Definition byte_itvs (a : string) (n : nat) : amap := map (fun i => ((a, i), (0, 255))) (seq 0 n).
Lemma byte_itvs_ok e a n l : List.length l = n -> Forall isbyte l -> (forall i, e (a, i) = nth i l 0) ->
  Forall (in_itv e) (byte_itvs a n).
Proof.
  intros L B E. unfold byte_itvs. apply Forall_map, Forall_forall. intros i Hi. apply in_seq in Hi.
  unfold in_itv. cbn [fst snd]. rewrite E. rewrite Forall_forall in B. apply B, nth_In. lia.
Qed.

(** Tiling: consecutive slices of the bits of a number *)
Lemma slice_split N a w c : 0 <= a -> 0 <= w -> c = a + w ->
  N mod 2 ^ c = N mod 2 ^ a + 2 ^ a * ((N / 2 ^ a) mod 2 ^ w).
Proof.
  intros Ha Hw ->. rewrite Z.pow_add_r by lia.
  assert (0 < 2 ^ a) by (apply Z.pow_pos_nonneg; lia). assert (0 < 2 ^ w) by (apply Z.pow_pos_nonneg; lia).
  rewrite Z.rem_mul_r by lia. reflexivity.
Qed.

Definition scal_expr (l : list (string * Z)) : expr :=
  fold_left (fun x t => Eadd I64 x (Emul I64 (Ec (snd t)) (Ev (fst t, 0%nat)))) l (Ec 0).
Definition h_names : list (string * Z) :=
  [("h0", 1); ("h1", 2^26); ("h2", 2^51); ("h3", 2^77); ("h4", 2^102); ("h5", 2^128); ("h6", 2^153);
   ("h7", 2^179); ("h8", 2^204); ("h9", 2^230)]%string.

Lemma FeFromBytes_range :
  range_check (byte_itvs "src" 32) (FeFromBytes_code1 ++ FeFromBytes_code2) (fe_itvs 101 "dst") = true.
Proof. vm_compute. reflexivity. Qed.
Lemma FeFromBytes_poly :
  congr_check p25519 (map (fun t => (fst t, 0%nat)) h_names) FeFromBytes_code2 (fe_expr "dst") (scal_expr h_names) = true.
Proof. vm_compute. reflexivity. Qed.

Lemma land_mask x k : 0 <= k -> Z.land x (2 ^ k - 1) = x mod 2 ^ k.
Proof. intro H. rewrite <- Z.land_ones by exact H. now rewrite Z.ones_equiv. Qed.
Lemma FeFromBytes_ok b : List.length b = 32%nat ->
  fe_bound 101 (FeFromBytes b) /\ eqp (fe_value (FeFromBytes b)) (le_value b mod 2 ^ 255).
Proof.
  intro L. unfold FeFromBytes. set (l := map byteZ b). set (e := with_array env0 "src" l).
  assert (Ll : List.length l = 32%nat) by (unfold l; now rewrite map_length).
  assert (Bl : Forall isbyte l) by apply bytes_isbyte.
  destruct (range_check_sound _ _ _ e FeFromBytes_range) as [E R].
  { apply (byte_itvs_ok e "src" 32 l Ll Bl). intro i. reflexivity. }
  split; [now apply fe_itv_bound|].
  rewrite E in R |- *. rewrite iexec_app in R |- *. set (e1 := iexec e FeFromBytes_code1).
  pose proof (congr_check_sound _ _ _ _ _ FeFromBytes_poly e1) as Q. rewrite fe_expr_value in Q.
  unfold eqp. replace (le_value b mod 2 ^ 255) with (ideal e1 (scal_expr h_names)); [exact Q|].
  clear Q R E. unfold scal_expr, h_names. cbn [fold_left fst snd ideal].
  assert (H0 : e1 ("h0", 0%nat)%string = load (fun i => nth (0 + i) l 0) 4) by reflexivity.
  assert (H1 : e1 ("h1", 0%nat)%string = load (fun i => nth (4 + i) l 0) 3 * 2 ^ 6) by reflexivity.
  assert (H2 : e1 ("h2", 0%nat)%string = load (fun i => nth (7 + i) l 0) 3 * 2 ^ 5) by reflexivity.
  assert (H3 : e1 ("h3", 0%nat)%string = load (fun i => nth (10 + i) l 0) 3 * 2 ^ 3) by reflexivity.
  assert (H4 : e1 ("h4", 0%nat)%string = load (fun i => nth (13 + i) l 0) 3 * 2 ^ 2) by reflexivity.
  assert (H5 : e1 ("h5", 0%nat)%string = load (fun i => nth (16 + i) l 0) 4) by reflexivity.
  assert (H6 : e1 ("h6", 0%nat)%string = load (fun i => nth (20 + i) l 0) 3 * 2 ^ 7) by reflexivity.
  assert (H7 : e1 ("h7", 0%nat)%string = load (fun i => nth (23 + i) l 0) 3 * 2 ^ 5) by reflexivity.
  assert (H8 : e1 ("h8", 0%nat)%string = load (fun i => nth (26 + i) l 0) 3 * 2 ^ 4) by reflexivity.
  assert (H9 : e1 ("h9", 0%nat)%string = Z.land (load (fun i => nth (29 + i) l 0) 3) 8388607 * 2 ^ 2) by reflexivity.
  rewrite H0, H1, H2, H3, H4, H5, H6, H7, H8, H9. clear H0 H1 H2 H3 H4 H5 H6 H7 H8 H9.
  rewrite !load_slice by (first [assumption | lia]).
  unfold l. rewrite leZ_le_value. set (N := le_value b).
  change 8388607 with (2 ^ 23 - 1). rewrite land_mask by lia.
  rewrite Z.mul_1_l.
  cbn [Z.of_nat Pos.of_succ_nat Pos.succ Z.mul Pos.mul].
  rewrite <- Znumtheory.Zmod_div_mod; [|lia|lia|exists 2; reflexivity].
  rewrite Z.div_1_r.
  rewrite (slice_split N 232 23 255), (slice_split N 208 24 232), (slice_split N 184 24 208), (slice_split N 160 24 184), (slice_split N 128 32 160), (slice_split N 104 24 128), (slice_split N 80 24 104), (slice_split N 56 24 80), (slice_split N 32 24 56) by lia.
  ring.
Qed.

(** ** Writing bytes *)
Lemma byteZ_toByte z : byteZ (toByte z) = z mod 256.
Proof.
  unfold byteZ, toByte. rewrite to_N_b8.
  pose proof (Z.mod_pos_bound z 256 ltac:(lia)) as B.
  rewrite N.mod_small; [now rewrite Z2N.id by lia|]. change 256%N with (Z.to_N 256). apply Z2N.inj_lt; lia.
Qed.
Lemma wrap_mod256 t z : t <> U8 -> wrap t z mod 256 = z mod 256.
Proof.
  destruct t; intro H; [| |contradiction]; cbn [wrap].
  - rewrite Zminus_mod, <- Znumtheory.Zmod_div_mod by (first [lia | exists 16777216; reflexivity]).
    rewrite <- Zminus_mod. f_equal. lia.
  - rewrite Zminus_mod, <- Znumtheory.Zmod_div_mod by (first [lia | exists 72057594037927936; reflexivity]).
    rewrite <- Zminus_mod. f_equal. lia.
Qed.
Lemma lor_mod256 a b : Z.lor a b mod 256 = Z.lor (a mod 256) (b mod 256).
Proof. change 256 with (2 ^ 8). rewrite <- !Z.land_ones by lia. apply Z.land_lor_distr_l. Qed.
Lemma pack1 z k : 0 <= k -> wrap U8 (Z.shiftr z k) mod 256 = (z / 2 ^ k) mod 2 ^ 8.
Proof. intro H. cbn [wrap]. change (2 ^ 8) with 256. rewrite Z.mod_mod by lia. now rewrite Z.shiftr_div_pow2. Qed.
Lemma pack0 z : wrap U8 (Z.shiftr z 0) mod 256 = z mod 2 ^ 8.
Proof. rewrite (pack1 z 0) by lia. now rewrite Z.div_1_r. Qed.
Lemma pack2 t a b j k m : t <> U8 -> 0 <= j -> 0 <= k <= 8 -> m = 8 - k -> 0 <= a / 2 ^ j < 2 ^ k ->
  wrap U8 (Z.lor (Z.shiftr a j) (wrap t (Z.shiftl b k))) mod 256 = a / 2 ^ j + 2 ^ k * (b mod 2 ^ m).
Proof.
  intros Ht Hj Hk -> Ha. cbn [wrap]. rewrite Z.mod_mod by lia.
  rewrite lor_mod256, wrap_mod256 by exact Ht. rewrite Z.shiftr_div_pow2, Z.shiftl_mul_pow2 by lia.
  assert (0 < 2 ^ k) by (apply Z.pow_pos_nonneg; lia).
  assert (E : 256 = 2 ^ (8 - k) * 2 ^ k) by (rewrite <- Z.pow_add_r by lia; now replace (8 - k + k) with 8 by lia).
  assert (0 < 2 ^ (8 - k)) by (apply Z.pow_pos_nonneg; lia).
  rewrite (Z.mod_small (a / 2 ^ j)); [|split; [lia|]; nia].
  replace (b * 2 ^ k mod 256) with ((b mod 2 ^ (8 - k)) * 2 ^ k).
  - rewrite lor_disjoint by lia. ring.
  - rewrite E. now rewrite Z.mul_mod_distr_r by lia.
Qed.
Lemma piece h a w c : 0 <= a -> 0 <= w -> c = a + w -> h / 2 ^ a = (h / 2 ^ a) mod 2 ^ w + 2 ^ w * (h / 2 ^ c).
Proof.
  intros Ha Hw ->. rewrite Z.pow_add_r by lia.
  assert (0 < 2 ^ a) by (apply Z.pow_pos_nonneg; lia). assert (0 < 2 ^ w) by (apply Z.pow_pos_nonneg; lia).
  rewrite <- Z.div_div by lia. pose proof (Z.div_mod (h / 2 ^ a) (2 ^ w) ltac:(lia)). lia.
Qed.
Lemma piece0 h w : 0 <= w -> h = h mod 2 ^ w + 2 ^ w * (h / 2 ^ w).
Proof. intros Hw. assert (0 < 2 ^ w) by (apply Z.pow_pos_nonneg; lia). pose proof (Z.div_mod h (2 ^ w) ltac:(lia)). lia. Qed.
Lemma top_piece h a k : 0 <= a -> 0 <= k -> 0 <= h < 2 ^ (a + k) -> 0 <= h / 2 ^ a < 2 ^ k.
Proof.
  intros Ha Hk H. assert (0 < 2 ^ a) by (apply Z.pow_pos_nonneg; lia). rewrite Z.pow_add_r in H by lia.
  split; [apply Z.div_pos; lia|]. apply Z.div_lt_upper_bound; lia.
Qed.

(** The bytes that [FeToBytes] packs are those of the limbs' sum. *)
Lemma FeToBytes_pack_ok e : 
  (forall i, (i < 10)%nat -> 0 <= e ("h"%string, i) < (if Nat.even i then 2 ^ 26 else 2 ^ 25)) ->
  le_value (map (fun x => toByte (eval e x)) FeToBytes_pack) = fe_value (array e "h" 10).
Proof.
  intro B. unfold FeToBytes_pack, fe_value, array.
  cbn [map eval seq nth le_value]. rewrite !byteZ_toByte.
  pose proof (B 0%nat ltac:(lia)) as B0. cbn [Nat.even] in B0. set (h0 := e ("h"%string, 0%nat)) in *. clearbody h0.
  pose proof (B 1%nat ltac:(lia)) as B1. cbn [Nat.even] in B1. set (h1 := e ("h"%string, 1%nat)) in *. clearbody h1.
  pose proof (B 2%nat ltac:(lia)) as B2. cbn [Nat.even] in B2. set (h2 := e ("h"%string, 2%nat)) in *. clearbody h2.
  pose proof (B 3%nat ltac:(lia)) as B3. cbn [Nat.even] in B3. set (h3 := e ("h"%string, 3%nat)) in *. clearbody h3.
  pose proof (B 4%nat ltac:(lia)) as B4. cbn [Nat.even] in B4. set (h4 := e ("h"%string, 4%nat)) in *. clearbody h4.
  pose proof (B 5%nat ltac:(lia)) as B5. cbn [Nat.even] in B5. set (h5 := e ("h"%string, 5%nat)) in *. clearbody h5.
  pose proof (B 6%nat ltac:(lia)) as B6. cbn [Nat.even] in B6. set (h6 := e ("h"%string, 6%nat)) in *. clearbody h6.
  pose proof (B 7%nat ltac:(lia)) as B7. cbn [Nat.even] in B7. set (h7 := e ("h"%string, 7%nat)) in *. clearbody h7.
  pose proof (B 8%nat ltac:(lia)) as B8. cbn [Nat.even] in B8. set (h8 := e ("h"%string, 8%nat)) in *. clearbody h8.
  pose proof (B 9%nat ltac:(lia)) as B9. cbn [Nat.even] in B9. set (h9 := e ("h"%string, 9%nat)) in *. clearbody h9.
  clear B.
  rewrite (pack0 h0).
  rewrite (pack1 h0 8) by lia.
  rewrite (pack1 h0 16) by lia.
  rewrite (pack2 I32 h0 h1 24 2 6) by (first [discriminate | reflexivity | lia | apply top_piece; lia]).
  rewrite (pack1 h1 6) by lia.
  rewrite (pack1 h1 14) by lia.
  rewrite (pack2 I32 h1 h2 22 3 5) by (first [discriminate | reflexivity | lia | apply top_piece; lia]).
  rewrite (pack1 h2 5) by lia.
  rewrite (pack1 h2 13) by lia.
  rewrite (pack2 I32 h2 h3 21 5 3) by (first [discriminate | reflexivity | lia | apply top_piece; lia]).
  rewrite (pack1 h3 3) by lia.
  rewrite (pack1 h3 11) by lia.
  rewrite (pack2 I32 h3 h4 19 6 2) by (first [discriminate | reflexivity | lia | apply top_piece; lia]).
  rewrite (pack1 h4 2) by lia.
  rewrite (pack1 h4 10) by lia.
  rewrite (pack1 h4 18) by lia.
  rewrite (pack0 h5).
  rewrite (pack1 h5 8) by lia.
  rewrite (pack1 h5 16) by lia.
  rewrite (pack2 I32 h5 h6 24 1 7) by (first [discriminate | reflexivity | lia | apply top_piece; lia]).
  rewrite (pack1 h6 7) by lia.
  rewrite (pack1 h6 15) by lia.
  rewrite (pack2 I32 h6 h7 23 3 5) by (first [discriminate | reflexivity | lia | apply top_piece; lia]).
  rewrite (pack1 h7 5) by lia.
  rewrite (pack1 h7 13) by lia.
  rewrite (pack2 I32 h7 h8 21 4 4) by (first [discriminate | reflexivity | lia | apply top_piece; lia]).
  rewrite (pack1 h8 4) by lia.
  rewrite (pack1 h8 12) by lia.
  rewrite (pack2 I32 h8 h9 20 6 2) by (first [discriminate | reflexivity | lia | apply top_piece; lia]).
  rewrite (pack1 h9 2) by lia.
  rewrite (pack1 h9 10) by lia.
  rewrite (pack1 h9 18) by lia.
  pose proof (piece0 h0 8 ltac:(lia)).
  pose proof (piece h0 8 8 16 ltac:(lia) ltac:(lia) eq_refl).
  pose proof (piece h0 16 8 24 ltac:(lia) ltac:(lia) eq_refl).
  pose proof (piece0 h1 6 ltac:(lia)).
  pose proof (piece h1 6 8 14 ltac:(lia) ltac:(lia) eq_refl).
  pose proof (piece h1 14 8 22 ltac:(lia) ltac:(lia) eq_refl).
  pose proof (piece0 h2 5 ltac:(lia)).
  pose proof (piece h2 5 8 13 ltac:(lia) ltac:(lia) eq_refl).
  pose proof (piece h2 13 8 21 ltac:(lia) ltac:(lia) eq_refl).
  pose proof (piece0 h3 3 ltac:(lia)).
  pose proof (piece h3 3 8 11 ltac:(lia) ltac:(lia) eq_refl).
  pose proof (piece h3 11 8 19 ltac:(lia) ltac:(lia) eq_refl).
  pose proof (piece0 h4 2 ltac:(lia)).
  pose proof (piece h4 2 8 10 ltac:(lia) ltac:(lia) eq_refl).
  pose proof (piece h4 10 8 18 ltac:(lia) ltac:(lia) eq_refl).
  pose proof (piece h4 18 8 26 ltac:(lia) ltac:(lia) eq_refl).
  assert (h4 / 2 ^ 26 = 0) by (apply Z.div_small; lia).
  pose proof (piece0 h5 8 ltac:(lia)).
  pose proof (piece h5 8 8 16 ltac:(lia) ltac:(lia) eq_refl).
  pose proof (piece h5 16 8 24 ltac:(lia) ltac:(lia) eq_refl).
  pose proof (piece0 h6 7 ltac:(lia)).
  pose proof (piece h6 7 8 15 ltac:(lia) ltac:(lia) eq_refl).
  pose proof (piece h6 15 8 23 ltac:(lia) ltac:(lia) eq_refl).
  pose proof (piece0 h7 5 ltac:(lia)).
  pose proof (piece h7 5 8 13 ltac:(lia) ltac:(lia) eq_refl).
  pose proof (piece h7 13 8 21 ltac:(lia) ltac:(lia) eq_refl).
  pose proof (piece0 h8 4 ltac:(lia)).
  pose proof (piece h8 4 8 12 ltac:(lia) ltac:(lia) eq_refl).
  pose proof (piece h8 12 8 20 ltac:(lia) ltac:(lia) eq_refl).
  pose proof (piece0 h9 2 ltac:(lia)).
  pose proof (piece h9 2 8 10 ltac:(lia) ltac:(lia) eq_refl).
  pose proof (piece h9 10 8 18 ltac:(lia) ltac:(lia) eq_refl).
  pose proof (piece h9 18 8 26 ltac:(lia) ltac:(lia) eq_refl).
  assert (h9 / 2 ^ 26 = 0) by (apply Z.div_small; lia).
  lia.
Qed.
