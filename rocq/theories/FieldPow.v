(** Model of the exponentiation chains: edwards25519.go [FeInvert] and
    [fePow22523], extra25519.go [q58] and [chi]; and what they compute. *)
From Coq Require Import List NArith ZArith Lia Bool Arith String.
From Verif Require Import Base Extra25519 GoInt Field FieldSpec FieldFacts.
Import ListNotations.
Local Open Scope Z_scope.

(** [for i = 1; i < n; i++ { FeSquare(&t, &t) }] *)
Definition squares (n : nat) (t : fe) : fe := Nat.iter (n - 1) FeSquare t.

(** edwards25519.go:864-917 [FeInvert] *)
Definition FeInvert (z : fe) : fe :=
  let t0 := FeSquare z in
  let t1 := squares 2 (FeSquare t0) in
  let t1 := FeMul z t1 in
  let t0 := FeMul t0 t1 in
  let t2 := FeSquare t0 in
  let t1 := FeMul t1 t2 in
  let t2 := squares 5 (FeSquare t1) in
  let t1 := FeMul t2 t1 in
  let t2 := squares 10 (FeSquare t1) in
  let t2 := FeMul t2 t1 in
  let t3 := squares 20 (FeSquare t2) in
  let t2 := FeMul t3 t2 in
  let t2 := squares 10 (FeSquare t2) in
  let t1 := FeMul t2 t1 in
  let t2 := squares 50 (FeSquare t1) in
  let t2 := FeMul t2 t1 in
  let t3 := squares 100 (FeSquare t2) in
  let t2 := FeMul t3 t2 in
  let t2 := squares 50 (FeSquare t2) in
  let t1 := FeMul t2 t1 in
  let t1 := squares 5 (FeSquare t1) in
  FeMul t1 t0.

(** edwards25519.go:919-970 [fePow22523] *)
Definition fePow22523 (z : fe) : fe :=
  let t0 := squares 1 (FeSquare z) in
  let t1 := squares 2 (FeSquare t0) in
  let t1 := FeMul z t1 in
  let t0 := FeMul t0 t1 in
  let t0 := squares 1 (FeSquare t0) in
  let t0 := FeMul t1 t0 in
  let t1 := squares 5 (FeSquare t0) in
  let t0 := FeMul t1 t0 in
  let t1 := squares 10 (FeSquare t0) in
  let t1 := FeMul t1 t0 in
  let t2 := squares 20 (FeSquare t1) in
  let t1 := FeMul t2 t1 in
  let t1 := squares 10 (FeSquare t1) in
  let t0 := FeMul t1 t0 in
  let t1 := squares 50 (FeSquare t0) in
  let t1 := FeMul t1 t0 in
  let t2 := squares 100 (FeSquare t1) in
  let t1 := FeMul t2 t1 in
  let t1 := squares 50 (FeSquare t1) in
  let t0 := FeMul t1 t0 in
  let t0 := squares 2 (FeSquare t0) in
  FeMul t0 z.

(** extra25519.go:205-254 [q58] *)
Definition q58 (z : fe) : fe :=
  let t1 := FeSquare z in
  let t1 := FeMul t1 z in
  let t1 := FeSquare t1 in
  let t2 := FeSquare t1 in
  let t2 := FeSquare t2 in
  let t2 := FeMul t2 t1 in
  let t1 := FeMul t2 z in
  let t2 := squares 5 (FeSquare t1) in
  let t1 := FeMul t2 t1 in
  let t2 := squares 10 (FeSquare t1) in
  let t2 := FeMul t2 t1 in
  let t3 := squares 20 (FeSquare t2) in
  let t2 := FeMul t3 t2 in
  let t2 := squares 10 (FeSquare t2) in
  let t1 := FeMul t2 t1 in
  let t2 := squares 50 (FeSquare t1) in
  let t2 := FeMul t2 t1 in
  let t3 := squares 100 (FeSquare t2) in
  let t2 := FeMul t3 t2 in
  let t2 := squares 50 (FeSquare t2) in
  let t1 := FeMul t2 t1 in
  let t1 := FeSquare t1 in
  let t1 := FeSquare t1 in
  FeMul t1 z.

(** extra25519.go:258-309 [chi] *)
Definition chi (z : fe) : fe :=
  let t0 := FeSquare z in
  let t1 := FeMul t0 z in
  let t0 := FeSquare t1 in
  let t2 := FeSquare t0 in
  let t2 := FeSquare t2 in
  let t2 := FeMul t2 t0 in
  let t1 := FeMul t2 z in
  let t2 := squares 5 (FeSquare t1) in
  let t1 := FeMul t2 t1 in
  let t2 := squares 10 (FeSquare t1) in
  let t2 := FeMul t2 t1 in
  let t3 := squares 20 (FeSquare t2) in
  let t2 := FeMul t3 t2 in
  let t2 := squares 10 (FeSquare t2) in
  let t1 := FeMul t2 t1 in
  let t2 := squares 50 (FeSquare t1) in
  let t2 := FeMul t2 t1 in
  let t3 := squares 100 (FeSquare t2) in
  let t2 := FeMul t3 t2 in
  let t2 := squares 50 (FeSquare t2) in
  let t1 := FeMul t2 t1 in
  let t1 := squares 4 (FeSquare t1) in
  FeMul t1 t0.

(** ** Powers *)
Lemma eqp_refl a : eqp a a.
Proof. exists 0. ring. Qed.
Lemma eqp_sym a b : eqp a b -> eqp b a.
Proof. intros [k H]. exists (- k). lia. Qed.
Lemma eqp_trans a b c : eqp a b -> eqp b c -> eqp a c.
Proof. intros [k H] [j G]. exists (k + j). lia. Qed.
Lemma eqp_mul a b c d : eqp a b -> eqp c d -> eqp (a * c) (b * d).
Proof.
  intros [k H] [j G]. exists (k * c + b * j).
  replace a with (k * p25519 + b) by lia. replace c with (j * p25519 + d) by lia. ring.
Qed.

(** [pw z f n]: [f] holds [z] to the [n] and may be multiplied *)
Definition pw (z : Z) (f : fe) (n : Z) : Prop := fe_bound 330 f /\ 0 <= n /\ eqp (fe_value f) (z ^ n).
Lemma pw_base z : fe_bound 330 z -> pw (fe_value z) z 1.
Proof. intro B. split; [exact B|split; [lia|]]. rewrite Z.pow_1_r. apply eqp_refl. Qed.
Lemma pw_mul z f g m n : pw z f m -> pw z g n -> pw z (FeMul f g) (m + n).
Proof.
  intros (Bf & Hm & Ef) (Bg & Hn & Eg). destruct (FeMul_ok f g Bf Bg) as [B E].
  split; [apply (fe_bound_mono 101); [lia|exact B]|]. split; [lia|]. rewrite Z.pow_add_r by lia.
  eapply eqp_trans; [exact E|]. now apply eqp_mul.
Qed.
Lemma pw_square z f n : pw z f n -> pw z (FeSquare f) (2 * n).
Proof.
  intros (Bf & Hn & Ef). destruct (FeSquare_ok f Bf) as [B E].
  split; [apply (fe_bound_mono 101); [lia|exact B]|]. split; [lia|].
  replace (2 * n) with (n + n) by lia. rewrite Z.pow_add_r by lia.
  eapply eqp_trans; [exact E|]. now apply eqp_mul.
Qed.
Lemma pw_squares z k f n : pw z f n -> pw z (squares k f) (2 ^ Z.of_nat (k - 1) * n).
Proof.
  intro H. unfold squares. induction (k - 1)%nat as [|j IH].
  - change (2 ^ Z.of_nat 0) with 1. rewrite Z.mul_1_l. exact H.
  - rewrite Nat2Z.inj_succ, Z.pow_succ_r by lia. rewrite <- Z.mul_assoc. exact (pw_square _ _ _ IH).
Qed.
Lemma pw_last z f g m n : pw z f m -> pw z g n -> fe_bound 101 (FeMul f g) /\ eqp (fe_value (FeMul f g)) (z ^ (m + n)).
Proof.
  intros F G. split; [|apply (pw_mul z f g m n F G)]. destruct F as (Bf & _), G as (Bg & _). now apply FeMul_ok.
Qed.

Definition power (z r : fe) (n : Z) : Prop := fe_bound 101 r /\ eqp (fe_value r) (fe_value z ^ n).
Lemma FeInvert_ok z : fe_bound 330 z -> power z (FeInvert z) (p25519 - 2).
Proof.
  intro B. pose proof (pw_base z B) as Pz. unfold FeInvert. cbv zeta.
  assert (P1 : pw (fe_value z) (FeSquare z) 2) by exact (pw_square _ _ _ Pz).
  set (v1 := FeSquare z) in *. clearbody v1.
  assert (P2 : pw (fe_value z) (squares 2 (FeSquare v1)) 8) by exact (pw_squares _ 2 _ _ (pw_square _ _ _ P1)).
  set (v2 := squares 2 (FeSquare v1)) in *. clearbody v2.
  assert (P3 : pw (fe_value z) (FeMul z v2) 9) by exact (pw_mul _ _ _ _ _ Pz P2).
  set (v3 := FeMul z v2) in *. clearbody v3.
  assert (P4 : pw (fe_value z) (FeMul v1 v3) 11) by exact (pw_mul _ _ _ _ _ P1 P3).
  set (v4 := FeMul v1 v3) in *. clearbody v4.
  assert (P5 : pw (fe_value z) (FeSquare v4) 22) by exact (pw_square _ _ _ P4).
  set (v5 := FeSquare v4) in *. clearbody v5.
  assert (P6 : pw (fe_value z) (FeMul v3 v5) 31) by exact (pw_mul _ _ _ _ _ P3 P5).
  set (v6 := FeMul v3 v5) in *. clearbody v6.
  assert (P7 : pw (fe_value z) (squares 5 (FeSquare v6)) 992) by exact (pw_squares _ 5 _ _ (pw_square _ _ _ P6)).
  set (v7 := squares 5 (FeSquare v6)) in *. clearbody v7.
  assert (P8 : pw (fe_value z) (FeMul v7 v6) 1023) by exact (pw_mul _ _ _ _ _ P7 P6).
  set (v8 := FeMul v7 v6) in *. clearbody v8.
  assert (P9 : pw (fe_value z) (squares 10 (FeSquare v8)) 1047552) by exact (pw_squares _ 10 _ _ (pw_square _ _ _ P8)).
  set (v9 := squares 10 (FeSquare v8)) in *. clearbody v9.
  assert (P10 : pw (fe_value z) (FeMul v9 v8) 1048575) by exact (pw_mul _ _ _ _ _ P9 P8).
  set (v10 := FeMul v9 v8) in *. clearbody v10.
  assert (P11 : pw (fe_value z) (squares 20 (FeSquare v10)) 1099510579200) by exact (pw_squares _ 20 _ _ (pw_square _ _ _ P10)).
  set (v11 := squares 20 (FeSquare v10)) in *. clearbody v11.
  assert (P12 : pw (fe_value z) (FeMul v11 v10) 1099511627775) by exact (pw_mul _ _ _ _ _ P11 P10).
  set (v12 := FeMul v11 v10) in *. clearbody v12.
  assert (P13 : pw (fe_value z) (squares 10 (FeSquare v12)) 1125899906841600) by exact (pw_squares _ 10 _ _ (pw_square _ _ _ P12)).
  set (v13 := squares 10 (FeSquare v12)) in *. clearbody v13.
  assert (P14 : pw (fe_value z) (FeMul v13 v8) 1125899906842623) by exact (pw_mul _ _ _ _ _ P13 P8).
  set (v14 := FeMul v13 v8) in *. clearbody v14.
  assert (P15 : pw (fe_value z) (squares 50 (FeSquare v14)) 1267650600228228275596796362752) by exact (pw_squares _ 50 _ _ (pw_square _ _ _ P14)).
  set (v15 := squares 50 (FeSquare v14)) in *. clearbody v15.
  assert (P16 : pw (fe_value z) (FeMul v15 v14) 1267650600228229401496703205375) by exact (pw_mul _ _ _ _ _ P15 P14).
  set (v16 := FeMul v15 v14) in *. clearbody v16.
  assert (P17 : pw (fe_value z) (squares 100 (FeSquare v16)) 1606938044258990275541962092339894951921974764381296132096000) by exact (pw_squares _ 100 _ _ (pw_square _ _ _ P16)).
  set (v17 := squares 100 (FeSquare v16)) in *. clearbody v17.
  assert (P18 : pw (fe_value z) (FeMul v17 v16) 1606938044258990275541962092341162602522202993782792835301375) by exact (pw_mul _ _ _ _ _ P17 P16).
  set (v18 := FeMul v17 v16) in *. clearbody v18.
  assert (P19 : pw (fe_value z) (squares 50 (FeSquare v18)) 1809251394333065553493296640760748560207343510400633813116523624223735808000) by exact (pw_squares _ 50 _ _ (pw_square _ _ _ P18)).
  set (v19 := squares 50 (FeSquare v18)) in *. clearbody v19.
  assert (P20 : pw (fe_value z) (FeMul v19 v14) 1809251394333065553493296640760748560207343510400633813116524750123642650623) by exact (pw_mul _ _ _ _ _ P19 P14).
  set (v20 := FeMul v19 v14) in *. clearbody v20.
  assert (P21 : pw (fe_value z) (squares 5 (FeSquare v20)) 57896044618658097711785492504343953926634992332820282019728792003956564819936) by exact (pw_squares _ 5 _ _ (pw_square _ _ _ P20)).
  set (v21 := squares 5 (FeSquare v20)) in *. clearbody v21.
  exact (pw_last _ _ _ _ _ P21 P4).
Qed.
Lemma fePow22523_ok z : fe_bound 330 z -> power z (fePow22523 z) ((p25519 - 5) / 8).
Proof.
  intro B. pose proof (pw_base z B) as Pz. unfold fePow22523. cbv zeta.
  assert (P1 : pw (fe_value z) (squares 1 (FeSquare z)) 2) by exact (pw_squares _ 1 _ _ (pw_square _ _ _ Pz)).
  set (v1 := squares 1 (FeSquare z)) in *. clearbody v1.
  assert (P2 : pw (fe_value z) (squares 2 (FeSquare v1)) 8) by exact (pw_squares _ 2 _ _ (pw_square _ _ _ P1)).
  set (v2 := squares 2 (FeSquare v1)) in *. clearbody v2.
  assert (P3 : pw (fe_value z) (FeMul z v2) 9) by exact (pw_mul _ _ _ _ _ Pz P2).
  set (v3 := FeMul z v2) in *. clearbody v3.
  assert (P4 : pw (fe_value z) (FeMul v1 v3) 11) by exact (pw_mul _ _ _ _ _ P1 P3).
  set (v4 := FeMul v1 v3) in *. clearbody v4.
  assert (P5 : pw (fe_value z) (squares 1 (FeSquare v4)) 22) by exact (pw_squares _ 1 _ _ (pw_square _ _ _ P4)).
  set (v5 := squares 1 (FeSquare v4)) in *. clearbody v5.
  assert (P6 : pw (fe_value z) (FeMul v3 v5) 31) by exact (pw_mul _ _ _ _ _ P3 P5).
  set (v6 := FeMul v3 v5) in *. clearbody v6.
  assert (P7 : pw (fe_value z) (squares 5 (FeSquare v6)) 992) by exact (pw_squares _ 5 _ _ (pw_square _ _ _ P6)).
  set (v7 := squares 5 (FeSquare v6)) in *. clearbody v7.
  assert (P8 : pw (fe_value z) (FeMul v7 v6) 1023) by exact (pw_mul _ _ _ _ _ P7 P6).
  set (v8 := FeMul v7 v6) in *. clearbody v8.
  assert (P9 : pw (fe_value z) (squares 10 (FeSquare v8)) 1047552) by exact (pw_squares _ 10 _ _ (pw_square _ _ _ P8)).
  set (v9 := squares 10 (FeSquare v8)) in *. clearbody v9.
  assert (P10 : pw (fe_value z) (FeMul v9 v8) 1048575) by exact (pw_mul _ _ _ _ _ P9 P8).
  set (v10 := FeMul v9 v8) in *. clearbody v10.
  assert (P11 : pw (fe_value z) (squares 20 (FeSquare v10)) 1099510579200) by exact (pw_squares _ 20 _ _ (pw_square _ _ _ P10)).
  set (v11 := squares 20 (FeSquare v10)) in *. clearbody v11.
  assert (P12 : pw (fe_value z) (FeMul v11 v10) 1099511627775) by exact (pw_mul _ _ _ _ _ P11 P10).
  set (v12 := FeMul v11 v10) in *. clearbody v12.
  assert (P13 : pw (fe_value z) (squares 10 (FeSquare v12)) 1125899906841600) by exact (pw_squares _ 10 _ _ (pw_square _ _ _ P12)).
  set (v13 := squares 10 (FeSquare v12)) in *. clearbody v13.
  assert (P14 : pw (fe_value z) (FeMul v13 v8) 1125899906842623) by exact (pw_mul _ _ _ _ _ P13 P8).
  set (v14 := FeMul v13 v8) in *. clearbody v14.
  assert (P15 : pw (fe_value z) (squares 50 (FeSquare v14)) 1267650600228228275596796362752) by exact (pw_squares _ 50 _ _ (pw_square _ _ _ P14)).
  set (v15 := squares 50 (FeSquare v14)) in *. clearbody v15.
  assert (P16 : pw (fe_value z) (FeMul v15 v14) 1267650600228229401496703205375) by exact (pw_mul _ _ _ _ _ P15 P14).
  set (v16 := FeMul v15 v14) in *. clearbody v16.
  assert (P17 : pw (fe_value z) (squares 100 (FeSquare v16)) 1606938044258990275541962092339894951921974764381296132096000) by exact (pw_squares _ 100 _ _ (pw_square _ _ _ P16)).
  set (v17 := squares 100 (FeSquare v16)) in *. clearbody v17.
  assert (P18 : pw (fe_value z) (FeMul v17 v16) 1606938044258990275541962092341162602522202993782792835301375) by exact (pw_mul _ _ _ _ _ P17 P16).
  set (v18 := FeMul v17 v16) in *. clearbody v18.
  assert (P19 : pw (fe_value z) (squares 50 (FeSquare v18)) 1809251394333065553493296640760748560207343510400633813116523624223735808000) by exact (pw_squares _ 50 _ _ (pw_square _ _ _ P18)).
  set (v19 := squares 50 (FeSquare v18)) in *. clearbody v19.
  assert (P20 : pw (fe_value z) (FeMul v19 v14) 1809251394333065553493296640760748560207343510400633813116524750123642650623) by exact (pw_mul _ _ _ _ _ P19 P14).
  set (v20 := FeMul v19 v14) in *. clearbody v20.
  assert (P21 : pw (fe_value z) (squares 2 (FeSquare v20)) 7237005577332262213973186563042994240829374041602535252466099000494570602492) by exact (pw_squares _ 2 _ _ (pw_square _ _ _ P20)).
  set (v21 := squares 2 (FeSquare v20)) in *. clearbody v21.
  exact (pw_last _ _ _ _ _ P21 Pz).
Qed.
Lemma q58_ok z : fe_bound 330 z -> power z (q58 z) ((p25519 - 5) / 8).
Proof.
  intro B. pose proof (pw_base z B) as Pz. unfold q58. cbv zeta.
  assert (P1 : pw (fe_value z) (FeSquare z) 2) by exact (pw_square _ _ _ Pz).
  set (v1 := FeSquare z) in *. clearbody v1.
  assert (P2 : pw (fe_value z) (FeMul v1 z) 3) by exact (pw_mul _ _ _ _ _ P1 Pz).
  set (v2 := FeMul v1 z) in *. clearbody v2.
  assert (P3 : pw (fe_value z) (FeSquare v2) 6) by exact (pw_square _ _ _ P2).
  set (v3 := FeSquare v2) in *. clearbody v3.
  assert (P4 : pw (fe_value z) (FeSquare v3) 12) by exact (pw_square _ _ _ P3).
  set (v4 := FeSquare v3) in *. clearbody v4.
  assert (P5 : pw (fe_value z) (FeSquare v4) 24) by exact (pw_square _ _ _ P4).
  set (v5 := FeSquare v4) in *. clearbody v5.
  assert (P6 : pw (fe_value z) (FeMul v5 v3) 30) by exact (pw_mul _ _ _ _ _ P5 P3).
  set (v6 := FeMul v5 v3) in *. clearbody v6.
  assert (P7 : pw (fe_value z) (FeMul v6 z) 31) by exact (pw_mul _ _ _ _ _ P6 Pz).
  set (v7 := FeMul v6 z) in *. clearbody v7.
  assert (P8 : pw (fe_value z) (squares 5 (FeSquare v7)) 992) by exact (pw_squares _ 5 _ _ (pw_square _ _ _ P7)).
  set (v8 := squares 5 (FeSquare v7)) in *. clearbody v8.
  assert (P9 : pw (fe_value z) (FeMul v8 v7) 1023) by exact (pw_mul _ _ _ _ _ P8 P7).
  set (v9 := FeMul v8 v7) in *. clearbody v9.
  assert (P10 : pw (fe_value z) (squares 10 (FeSquare v9)) 1047552) by exact (pw_squares _ 10 _ _ (pw_square _ _ _ P9)).
  set (v10 := squares 10 (FeSquare v9)) in *. clearbody v10.
  assert (P11 : pw (fe_value z) (FeMul v10 v9) 1048575) by exact (pw_mul _ _ _ _ _ P10 P9).
  set (v11 := FeMul v10 v9) in *. clearbody v11.
  assert (P12 : pw (fe_value z) (squares 20 (FeSquare v11)) 1099510579200) by exact (pw_squares _ 20 _ _ (pw_square _ _ _ P11)).
  set (v12 := squares 20 (FeSquare v11)) in *. clearbody v12.
  assert (P13 : pw (fe_value z) (FeMul v12 v11) 1099511627775) by exact (pw_mul _ _ _ _ _ P12 P11).
  set (v13 := FeMul v12 v11) in *. clearbody v13.
  assert (P14 : pw (fe_value z) (squares 10 (FeSquare v13)) 1125899906841600) by exact (pw_squares _ 10 _ _ (pw_square _ _ _ P13)).
  set (v14 := squares 10 (FeSquare v13)) in *. clearbody v14.
  assert (P15 : pw (fe_value z) (FeMul v14 v9) 1125899906842623) by exact (pw_mul _ _ _ _ _ P14 P9).
  set (v15 := FeMul v14 v9) in *. clearbody v15.
  assert (P16 : pw (fe_value z) (squares 50 (FeSquare v15)) 1267650600228228275596796362752) by exact (pw_squares _ 50 _ _ (pw_square _ _ _ P15)).
  set (v16 := squares 50 (FeSquare v15)) in *. clearbody v16.
  assert (P17 : pw (fe_value z) (FeMul v16 v15) 1267650600228229401496703205375) by exact (pw_mul _ _ _ _ _ P16 P15).
  set (v17 := FeMul v16 v15) in *. clearbody v17.
  assert (P18 : pw (fe_value z) (squares 100 (FeSquare v17)) 1606938044258990275541962092339894951921974764381296132096000) by exact (pw_squares _ 100 _ _ (pw_square _ _ _ P17)).
  set (v18 := squares 100 (FeSquare v17)) in *. clearbody v18.
  assert (P19 : pw (fe_value z) (FeMul v18 v17) 1606938044258990275541962092341162602522202993782792835301375) by exact (pw_mul _ _ _ _ _ P18 P17).
  set (v19 := FeMul v18 v17) in *. clearbody v19.
  assert (P20 : pw (fe_value z) (squares 50 (FeSquare v19)) 1809251394333065553493296640760748560207343510400633813116523624223735808000) by exact (pw_squares _ 50 _ _ (pw_square _ _ _ P19)).
  set (v20 := squares 50 (FeSquare v19)) in *. clearbody v20.
  assert (P21 : pw (fe_value z) (FeMul v20 v15) 1809251394333065553493296640760748560207343510400633813116524750123642650623) by exact (pw_mul _ _ _ _ _ P20 P15).
  set (v21 := FeMul v20 v15) in *. clearbody v21.
  assert (P22 : pw (fe_value z) (FeSquare v21) 3618502788666131106986593281521497120414687020801267626233049500247285301246) by exact (pw_square _ _ _ P21).
  set (v22 := FeSquare v21) in *. clearbody v22.
  assert (P23 : pw (fe_value z) (FeSquare v22) 7237005577332262213973186563042994240829374041602535252466099000494570602492) by exact (pw_square _ _ _ P22).
  set (v23 := FeSquare v22) in *. clearbody v23.
  exact (pw_last _ _ _ _ _ P23 Pz).
Qed.
Lemma chi_ok z : fe_bound 330 z -> power z (chi z) ((p25519 - 1) / 2).
Proof.
  intro B. pose proof (pw_base z B) as Pz. unfold chi. cbv zeta.
  assert (P1 : pw (fe_value z) (FeSquare z) 2) by exact (pw_square _ _ _ Pz).
  set (v1 := FeSquare z) in *. clearbody v1.
  assert (P2 : pw (fe_value z) (FeMul v1 z) 3) by exact (pw_mul _ _ _ _ _ P1 Pz).
  set (v2 := FeMul v1 z) in *. clearbody v2.
  assert (P3 : pw (fe_value z) (FeSquare v2) 6) by exact (pw_square _ _ _ P2).
  set (v3 := FeSquare v2) in *. clearbody v3.
  assert (P4 : pw (fe_value z) (FeSquare v3) 12) by exact (pw_square _ _ _ P3).
  set (v4 := FeSquare v3) in *. clearbody v4.
  assert (P5 : pw (fe_value z) (FeSquare v4) 24) by exact (pw_square _ _ _ P4).
  set (v5 := FeSquare v4) in *. clearbody v5.
  assert (P6 : pw (fe_value z) (FeMul v5 v3) 30) by exact (pw_mul _ _ _ _ _ P5 P3).
  set (v6 := FeMul v5 v3) in *. clearbody v6.
  assert (P7 : pw (fe_value z) (FeMul v6 z) 31) by exact (pw_mul _ _ _ _ _ P6 Pz).
  set (v7 := FeMul v6 z) in *. clearbody v7.
  assert (P8 : pw (fe_value z) (squares 5 (FeSquare v7)) 992) by exact (pw_squares _ 5 _ _ (pw_square _ _ _ P7)).
  set (v8 := squares 5 (FeSquare v7)) in *. clearbody v8.
  assert (P9 : pw (fe_value z) (FeMul v8 v7) 1023) by exact (pw_mul _ _ _ _ _ P8 P7).
  set (v9 := FeMul v8 v7) in *. clearbody v9.
  assert (P10 : pw (fe_value z) (squares 10 (FeSquare v9)) 1047552) by exact (pw_squares _ 10 _ _ (pw_square _ _ _ P9)).
  set (v10 := squares 10 (FeSquare v9)) in *. clearbody v10.
  assert (P11 : pw (fe_value z) (FeMul v10 v9) 1048575) by exact (pw_mul _ _ _ _ _ P10 P9).
  set (v11 := FeMul v10 v9) in *. clearbody v11.
  assert (P12 : pw (fe_value z) (squares 20 (FeSquare v11)) 1099510579200) by exact (pw_squares _ 20 _ _ (pw_square _ _ _ P11)).
  set (v12 := squares 20 (FeSquare v11)) in *. clearbody v12.
  assert (P13 : pw (fe_value z) (FeMul v12 v11) 1099511627775) by exact (pw_mul _ _ _ _ _ P12 P11).
  set (v13 := FeMul v12 v11) in *. clearbody v13.
  assert (P14 : pw (fe_value z) (squares 10 (FeSquare v13)) 1125899906841600) by exact (pw_squares _ 10 _ _ (pw_square _ _ _ P13)).
  set (v14 := squares 10 (FeSquare v13)) in *. clearbody v14.
  assert (P15 : pw (fe_value z) (FeMul v14 v9) 1125899906842623) by exact (pw_mul _ _ _ _ _ P14 P9).
  set (v15 := FeMul v14 v9) in *. clearbody v15.
  assert (P16 : pw (fe_value z) (squares 50 (FeSquare v15)) 1267650600228228275596796362752) by exact (pw_squares _ 50 _ _ (pw_square _ _ _ P15)).
  set (v16 := squares 50 (FeSquare v15)) in *. clearbody v16.
  assert (P17 : pw (fe_value z) (FeMul v16 v15) 1267650600228229401496703205375) by exact (pw_mul _ _ _ _ _ P16 P15).
  set (v17 := FeMul v16 v15) in *. clearbody v17.
  assert (P18 : pw (fe_value z) (squares 100 (FeSquare v17)) 1606938044258990275541962092339894951921974764381296132096000) by exact (pw_squares _ 100 _ _ (pw_square _ _ _ P17)).
  set (v18 := squares 100 (FeSquare v17)) in *. clearbody v18.
  assert (P19 : pw (fe_value z) (FeMul v18 v17) 1606938044258990275541962092341162602522202993782792835301375) by exact (pw_mul _ _ _ _ _ P18 P17).
  set (v19 := FeMul v18 v17) in *. clearbody v19.
  assert (P20 : pw (fe_value z) (squares 50 (FeSquare v19)) 1809251394333065553493296640760748560207343510400633813116523624223735808000) by exact (pw_squares _ 50 _ _ (pw_square _ _ _ P19)).
  set (v20 := squares 50 (FeSquare v19)) in *. clearbody v20.
  assert (P21 : pw (fe_value z) (FeMul v20 v15) 1809251394333065553493296640760748560207343510400633813116524750123642650623) by exact (pw_mul _ _ _ _ _ P20 P15).
  set (v21 := FeMul v20 v15) in *. clearbody v21.
  assert (P22 : pw (fe_value z) (squares 4 (FeSquare v21)) 28948022309329048855892746252171976963317496166410141009864396001978282409968) by exact (pw_squares _ 4 _ _ (pw_square _ _ _ P21)).
  set (v22 := squares 4 (FeSquare v21)) in *. clearbody v22.
  exact (pw_last _ _ _ _ _ P22 P3).
Qed.
