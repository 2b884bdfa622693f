(** C50 (scalars), C51 (field arithmetic), C52 (powers).

    Specification: a field element is the list of its ten int32 limbs, it
    denotes the number [fe_value], and [fe_bound k] is the documented bound
    "k/100 * (2^25, 2^24, 2^25, ...)" on the limbs; byte strings denote
    little-endian numbers ([le_value]); [p25519 = 2^255 - 19] and [L25519] is the
    documented group order.  The programs in EdCode.v run with Go's wrap-around
    semantics, so a result that is right is right in spite of any overflow;
    that no intermediate result overflows is stated separately. *)
From Coq Require Import List NArith ZArith Lia Bool Arith String Znumtheory.
From Verif Require Import Base Extra25519 GoInt GoPoly EdCode Field FieldSpec FieldFacts FieldBytes FieldPow Scalar ScalarFacts.
Import ListNotations.
Local Open Scope Z_scope.

Lemma eqp_mod a b : eqp a b <-> a mod p25519 = b mod p25519.
Proof.
  assert (P : p25519 <> 0) by discriminate. split.
  - intros [k H]. replace a with (b + k * p25519) by lia. now apply Z_mod_plus_full.
  - intro H. exists (a / p25519 - b / p25519). pose proof (Z.div_mod a _ P). pose proof (Z.div_mod b _ P). lia.
Qed.

(** ** C51 *)
(** Multiplication and squaring: documented for limbs within 1.1*2^26 (k = 220),
    true up to 1.65*2^26.  The result is within 1.01*2^25. *)
Theorem C51_mul : forall f g : fe, fe_bound 330 f -> fe_bound 330 g ->
  fe_value (FeMul f g) mod p25519 = (fe_value f * fe_value g) mod p25519 /\ fe_bound 101 (FeMul f g).
Proof. intros f g F G. destruct (FeMul_ok f g F G) as [B E]. now rewrite <- eqp_mod. Qed.
Theorem C51_square : forall f : fe, fe_bound 330 f ->
  fe_value (FeSquare f) mod p25519 = (fe_value f * fe_value f) mod p25519 /\ fe_bound 101 (FeSquare f).
Proof. intros f F. destruct (FeSquare_ok f F) as [B E]. now rewrite <- eqp_mod. Qed.
Theorem C51_square2 : forall f : fe, fe_bound 330 f ->
  fe_value (FeSquare2 f) mod p25519 = (2 * (fe_value f * fe_value f)) mod p25519 /\ fe_bound 101 (FeSquare2 f).
Proof. intros f F. destruct (FeSquare2_ok f F) as [B E]. now rewrite <- eqp_mod. Qed.
(** Addition, subtraction and negation are exact on the denoted numbers. *)
Theorem C51_add : forall j k (f g : fe), 0 <= j -> 0 <= k -> j + k <= 6000 -> fe_bound j f -> fe_bound k g ->
  fe_value (FeAdd f g) = fe_value f + fe_value g /\ fe_bound (j + k) (FeAdd f g).
Proof. intros j k f g J K L F G. now destruct (FeAdd_ok j k f g J K L F G). Qed.
Theorem C51_sub : forall j k (f g : fe), 0 <= j -> 0 <= k -> j + k <= 6000 -> fe_bound j f -> fe_bound k g ->
  fe_value (FeSub f g) = fe_value f - fe_value g /\ fe_bound (j + k) (FeSub f g).
Proof. intros j k f g J K L F G. now destruct (FeSub_ok j k f g J K L F G). Qed.
Theorem C51_neg : forall k (f : fe), 0 <= k <= 6000 -> fe_bound k f ->
  fe_value (FeNeg f) = - fe_value f /\ fe_bound k (FeNeg f).
Proof. intros k f K F. now destruct (FeNeg_ok k f K F). Qed.
(** The conditional move takes the second operand exactly when the flag is 1. *)
Theorem C51_cmove : forall f g : fe, List.length f = 10%nat -> List.length g = 10%nat ->
  FeCMove f g 0 = f /\ FeCMove f g 1 = g.
Proof. intros f g F G. split; rewrite FeCMove_ok; auto. Qed.
(** Reading 32 bytes ignores the top bit. *)
Theorem C51_from_bytes : forall b : bytes, List.length b = 32%nat ->
  fe_value (FeFromBytes b) mod p25519 = (le_value b mod 2 ^ 255) mod p25519 /\ fe_bound 101 (FeFromBytes b).
Proof. intros b L. destruct (FeFromBytes_ok b L) as [B E]. now rewrite <- eqp_mod. Qed.
(** Writing: documented for limbs within 1.1*2^25, true up to 1.65*2^26 (sums of three
    products, as [ScalarBaseMult] tests them, exceed the documented bound).  The
    bytes are the number reduced modulo p; the argument is overwritten with
    limbs of that same number. *)
Theorem C51_to_bytes : forall h : fe, fe_bound 330 h ->
  List.length (fst (FeToBytes h)) = 32%nat /\
  le_value (fst (FeToBytes h)) = fe_value h mod p25519 /\
  fe_value (snd (FeToBytes h)) = fe_value h mod p25519 /\ fe_bound 200 (snd (FeToBytes h)).
Proof. intros h B. destruct (FeToBytes_ok h B) as (L & V & B' & V'). auto. Qed.

Lemma le_value_inj : forall a b : bytes, List.length a = List.length b -> le_value a = le_value b -> a = b.
Proof.
  induction a as [|x a IH]; intros [|y b] L E; try discriminate L; [reflexivity|].
  cbn [le_value] in E. pose proof (byteZ_bound x). pose proof (byteZ_bound y).
  assert (byteZ x = byteZ y) by lia. f_equal; [now apply byteZ_inj|]. apply IH; [now injection L|lia].
Qed.
(** Canonical: equal elements, and only those, have equal encodings. *)
Theorem C51_to_bytes_canonical : forall f g : fe, fe_bound 330 f -> fe_bound 330 g ->
  (fst (FeToBytes f) = fst (FeToBytes g) <-> fe_value f mod p25519 = fe_value g mod p25519).
Proof.
  intros f g F G. destruct (FeToBytes_ok f F) as (Lf & Vf & _). destruct (FeToBytes_ok g G) as (Lg & Vg & _). split; intro H.
  - now rewrite <- Vf, <- Vg, H.
  - apply le_value_inj; congruence.
Qed.
(** Reading and writing back a canonical encoding gives the same bytes. *)
Theorem C51_round_trip : forall b : bytes, List.length b = 32%nat -> le_value b < p25519 ->
  fst (FeToBytes (FeFromBytes b)) = b.
Proof.
  intros b L P. destruct (FeFromBytes_ok b L) as [B E]. apply eqp_mod in E.
  destruct (FeToBytes_ok (FeFromBytes b)) as (L' & V & _); [apply (fe_bound_mono 101); [lia|exact B]|].
  apply le_value_inj; [congruence|]. rewrite V, E. pose proof (le_value_bound b) as Bd.
  unfold p25519 in *. rewrite (Z.mod_small _ (2 ^ 255)) by lia. apply Z.mod_small. lia.
Qed.
Theorem C51_is_negative : forall f : fe, fe_bound 330 f ->
  fst (FeIsNegative f) = (fe_value f mod p25519) mod 2 /\
  fe_value (snd (FeIsNegative f)) = fe_value f mod p25519 /\ fe_bound 200 (snd (FeIsNegative f)).
Proof. intros f B. destruct (FeIsNegative_ok f B) as (V & B' & V'). auto. Qed.
Theorem C51_is_nonzero : forall f : fe, fe_bound 330 f ->
  fst (FeIsNonZero f) = (if Z.eqb (fe_value f mod p25519) 0 then 0 else 1) /\
  fe_value (snd (FeIsNonZero f)) = fe_value f mod p25519 /\ fe_bound 200 (snd (FeIsNonZero f)).
Proof. intros f B. destruct (FeIsNonZero_ok f B) as (V & B' & V'). auto. Qed.

(** No overflow: the run with Go's integers equals the run with unbounded
    integers. *)
Theorem C51_no_overflow : forall f g : fe, fe_bound 330 f -> fe_bound 330 g ->
  let e := with_array (with_array env0 "f" f) "g" g in
  exec e FeMul_code = iexec e FeMul_code /\ exec e FeSquare_code = iexec e FeSquare_code /\
  exec e FeSquare2_code = iexec e FeSquare2_code.
Proof.
  intros f g F G e.
  assert (Ef : forall i, e ("f"%string, i) = nth i f 0) by (intro; reflexivity).
  assert (Eg : forall i, e ("g"%string, i) = nth i g 0) by (intro; reflexivity).
  pose proof (fe_bound_itv _ _ e _ F Ef) as If. pose proof (fe_bound_itv _ _ e _ G Eg) as Ig.
  split; [|split].
  - apply (range_check_sound _ _ _ e FeMul_range). apply Forall_app. split; assumption.
  - apply (range_check_sound _ _ _ e FeSquare_range If).
  - apply (range_check_sound _ _ _ e FeSquare2_range If).
Qed.
Theorem C51_no_overflow_bytes : forall (h : fe) (b : bytes), fe_bound 330 h -> List.length b = 32%nat ->
  let e1 := with_array env0 "h" h in let e2 := with_array env0 "src" (map byteZ b) in
  exec e1 (FeToBytes_code1 ++ FeToBytes_code2) = iexec e1 (FeToBytes_code1 ++ FeToBytes_code2) /\
  exec e2 (FeFromBytes_code1 ++ FeFromBytes_code2) = iexec e2 (FeFromBytes_code1 ++ FeFromBytes_code2).
Proof.
  intros h b H L e1 e2. split.
  - apply (range_check_sound _ _ _ e1 FeToBytes_range). apply (fe_bound_itv _ h); [exact H|]. intro; reflexivity.
  - apply (range_check_sound _ _ _ e2 FeFromBytes_range).
    apply (byte_itvs_ok e2 "src" 32 (map byteZ b)); [now rewrite map_length|apply bytes_isbyte|]. intro; reflexivity.
Qed.

(** Instances: limbs of mixed signs at the documented bound, and a case where
    the value is negative. *)
Definition ex_fe : fe := [-67108864; 33554432; 67108863; -33554432; 1; 0; -67108864; 5; 67108864; -33554431].
Example C51_nonvacuous :
  fe_bound 220 ex_fe /\ fe_value ex_fe < 0 /\ fst (FeIsNonZero ex_fe) = 1 /\
  le_value (fst (FeToBytes ex_fe)) = fe_value ex_fe + p25519 /\
  fe_value (FeMul ex_fe ex_fe) mod p25519 = (fe_value ex_fe * fe_value ex_fe) mod p25519.
Proof.
  split; [|vm_compute; auto]. split; [reflexivity|]. intros i Hi.
  do 10 (destruct i as [|i]; [vm_compute; discriminate|]). lia.
Qed.

(** ** C50 *)
Theorem C50_mul_add : forall a b c : bytes,
  List.length a = 32%nat -> List.length b = 32%nat -> List.length c = 32%nat ->
  List.length (ScMulAdd a b c) = 32%nat /\
  le_value (ScMulAdd a b c) = (le_value a * le_value b + le_value c) mod L25519.
Proof. exact ScMulAdd_ok. Qed.
Theorem C50_reduce : forall s : bytes, List.length s = 64%nat ->
  List.length (ScReduce s) = 32%nat /\ le_value (ScReduce s) = le_value s mod L25519.
Proof. exact ScReduce_ok. Qed.
(** [ScNeg] is [L - s] modulo 2^256: for s <= L, as documented, this is [L - s];
    for s = 0 the result is [L], congruent to but not equal to the canonical 0. *)
Theorem C50_neg : forall s : bytes, List.length s = 32%nat ->
  List.length (ScNeg s) = 32%nat /\ le_value (ScNeg s) = (L25519 - le_value s) mod 2 ^ 256.
Proof. exact ScNeg_ok. Qed.
Theorem C50_neg_documented : forall s : bytes, List.length s = 32%nat -> le_value s <= L25519 ->
  le_value (ScNeg s) = L25519 - le_value s /\ (le_value (ScNeg s) + le_value s) mod L25519 = 0.
Proof.
  intros s L H. destruct (ScNeg_ok s L) as [_ V]. pose proof (le_value_bound s) as B.
  rewrite V. rewrite Z.mod_small by (unfold L25519 in *; lia). split; [reflexivity|].
  replace (L25519 - le_value s + le_value s) with (1 * L25519) by ring. apply Z.mod_mul. discriminate.
Qed.
(** The results of the first two are canonical. *)
Theorem C50_canonical : forall a b c s : bytes,
  List.length a = 32%nat -> List.length b = 32%nat -> List.length c = 32%nat -> List.length s = 64%nat ->
  0 <= le_value (ScMulAdd a b c) < L25519 /\ 0 <= le_value (ScReduce s) < L25519.
Proof.
  intros a b c s A B C S. rewrite (proj2 (ScMulAdd_ok a b c A B C)), (proj2 (ScReduce_ok s S)).
  split; apply Z.mod_pos_bound; reflexivity.
Qed.
Theorem C50_no_overflow : forall a b c s : bytes,
  List.length a = 32%nat -> List.length b = 32%nat -> List.length c = 32%nat -> List.length s = 64%nat ->
  let e1 := with_array (with_array (with_array env0 "a" (map byteZ a)) "b" (map byteZ b)) "c" (map byteZ c) in
  let p1 := (ScMulAdd_code1 ++ ScMulAdd_code2 ++ ScMulAdd_code3 ++ ScMulAdd_code4 ++ ScMulAdd_code5)%list in
  let e2 := with_array env0 "s" (map byteZ s) in
  let p2 := (ScReduce_code1 ++ ScReduce_code2 ++ ScReduce_code3 ++ ScReduce_code4 ++ ScReduce_code5)%list in
  exec e1 p1 = iexec e1 p1 /\ exec e2 p2 = iexec e2 p2.
Proof.
  intros a b c s La Lb Lc Ls e1 p1 e2 p2. rewrite <- (map_length byteZ) in La, Lb, Lc, Ls. split.
  - apply (range_check_sound _ _ _ e1 ScMulAdd_end). unfold abc_itvs. rewrite !Forall_app. split; [|split].
    + exact (byte_itvs_ok e1 "a" 32 _ La (bytes_isbyte a) ltac:(intro; reflexivity)).
    + exact (byte_itvs_ok e1 "b" 32 _ Lb (bytes_isbyte b) ltac:(intro; reflexivity)).
    + exact (byte_itvs_ok e1 "c" 32 _ Lc (bytes_isbyte c) ltac:(intro; reflexivity)).
  - apply (range_check_sound _ _ _ e2 ScReduce_end).
    exact (byte_itvs_ok e2 "s" 64 _ Ls (bytes_isbyte s) ltac:(intro; reflexivity)).
Qed.

Definition ex_ff (n : nat) : bytes := repeat xff n.
Example C50_nonvacuous :
  le_value (ScMulAdd (ex_ff 32) (ex_ff 32) (ex_ff 32)) = (2 ^ 512 - 2 ^ 256) mod L25519 /\
  le_value (ScReduce (ex_ff 64)) = (2 ^ 512 - 1) mod L25519 /\
  le_value (ScNeg (repeat x01 32)) = L25519 - le_value (repeat x01 32) /\
  le_value (ScNeg (repeat x00 32)) = L25519.
Proof. vm_compute. auto. Qed.

(** ** C52 *)
Theorem C52_invert : forall z : fe, fe_bound 330 z ->
  fe_value (FeInvert z) mod p25519 = fe_value z ^ (p25519 - 2) mod p25519 /\ fe_bound 101 (FeInvert z).
Proof. intros z B. destruct (FeInvert_ok z B) as [B' E]. now rewrite <- eqp_mod. Qed.
Theorem C52_pow22523 : forall z : fe, fe_bound 330 z ->
  fe_value (fePow22523 z) mod p25519 = fe_value z ^ ((p25519 - 5) / 8) mod p25519 /\ fe_bound 101 (fePow22523 z).
Proof. intros z B. destruct (fePow22523_ok z B) as [B' E]. now rewrite <- eqp_mod. Qed.
Theorem C52_q58 : forall z : fe, fe_bound 330 z ->
  fe_value (q58 z) mod p25519 = fe_value z ^ ((p25519 - 5) / 8) mod p25519 /\ fe_bound 101 (q58 z).
Proof. intros z B. destruct (q58_ok z B) as [B' E]. now rewrite <- eqp_mod. Qed.
Theorem C52_chi : forall z : fe, fe_bound 330 z ->
  fe_value (chi z) mod p25519 = fe_value z ^ ((p25519 - 1) / 2) mod p25519 /\ fe_bound 101 (chi z).
Proof. intros z B. destruct (chi_ok z B) as [B' E]. now rewrite <- eqp_mod. Qed.

(** The element [ex_fe] of C51 (negative and positive limbs, beyond 25 and 26 bits) is in the bounds. *)
Example C52_nonvacuous : fe_bound 330 ex_fe /\ fe_value ex_fe mod p25519 <> 0 /\
  fe_value (FeInvert ex_fe) mod p25519 = fe_value ex_fe ^ (p25519 - 2) mod p25519.
Proof.
  assert (B : fe_bound 330 ex_fe) by (split; [reflexivity|]; intros i Hi; do 10 (destruct i as [|i]; [vm_compute; discriminate|]); lia).
  split; [exact B|]. split; [vm_compute; discriminate|exact (proj1 (C52_invert ex_fe B))].
Qed.

Print Assumptions C50_mul_add.
Print Assumptions C50_reduce.
Print Assumptions C51_to_bytes.
Print Assumptions C52_invert.
