(** Arithmetic that the kernel's ordinary reduction (without its bytecode
    machine, as in coqchk) evaluates quickly, for the certificates of
    NumTheory.v, EdOrder.v and BaseFacts.v.  Nothing here models code. *)
From Coq Require Import ZArith Lia Bool Znumtheory.
Local Open Scope Z_scope.

(** ** Multiplication with a sliding window of four bits *)
Section Window.
  Variables y y3 y5 y7 y9 y11 y13 y15 : positive.
  Definition sh4 (p : positive) : positive := xO (xO (xO (xO p))).
  Fixpoint mw (x : positive) : positive :=
    match x with
    | xH => y
    | xO p => xO (mw p)
    | xI xH => y3
    | xI (xO xH) => y5
    | xI (xI xH) => y7
    | xI (xO (xO xH)) => y9
    | xI (xI (xO xH)) => y11
    | xI (xO (xI xH)) => y13
    | xI (xI (xI xH)) => y15
    | xI (xO (xO (xO p))) => Pos.add y (sh4 (mw p))
    | xI (xI (xO (xO p))) => Pos.add y3 (sh4 (mw p))
    | xI (xO (xI (xO p))) => Pos.add y5 (sh4 (mw p))
    | xI (xI (xI (xO p))) => Pos.add y7 (sh4 (mw p))
    | xI (xO (xO (xI p))) => Pos.add y9 (sh4 (mw p))
    | xI (xI (xO (xI p))) => Pos.add y11 (sh4 (mw p))
    | xI (xO (xI (xI p))) => Pos.add y13 (sh4 (mw p))
    | xI (xI (xI (xI p))) => Pos.add y15 (sh4 (mw p))
    end.
  Hypothesis E3 : y3 = (3 * y)%positive.
  Hypothesis E5 : y5 = (5 * y)%positive.
  Hypothesis E7 : y7 = (7 * y)%positive.
  Hypothesis E9 : y9 = (9 * y)%positive.
  Hypothesis E11 : y11 = (11 * y)%positive.
  Hypothesis E13 : y13 = (13 * y)%positive.
  Hypothesis E15 : y15 = (15 * y)%positive.
  Lemma mw_ok_n : forall n x, (Pos.size_nat x <= n)%nat -> mw x = (x * y)%positive.
  Proof.
    induction n as [|n IH]; intros x H; [destruct x; cbn in H; lia|].
    assert (D : forall p, (Pos.size_nat p <= n)%nat -> Zpos (mw p) = Zpos p * Zpos y) by (intros p Hp; rewrite (IH p Hp); lia).
    assert (S4 : forall p, Zpos (sh4 p) = 16 * Zpos p) by (intro p; unfold sh4; lia).
    apply Pos2Z.inj. rewrite Pos2Z.inj_mul.
    destruct x as [x|x|]; [|cbn [mw]; rewrite Pos2Z.inj_xO, D by (cbn in H; lia); lia|cbn [mw]; lia].
    destruct x as [x|x|]; [destruct x as [x|x|]; [destruct x as [x|x|]|destruct x as [x|x|]|]|destruct x as [x|x|]; [destruct x as [x|x|]|destruct x as [x|x|]|]|];
      cbn [mw]; rewrite ?Pos2Z.inj_add, ?S4, ?(D x) by (cbn in H; lia); rewrite ?E3, ?E5, ?E7, ?E9, ?E11, ?E13, ?E15; lia.
  Qed.
  Lemma mw_ok x : mw x = (x * y)%positive.
  Proof. apply (mw_ok_n (Pos.size_nat x)). lia. Qed.
End Window.
Definition pmulw (x y : positive) : positive :=
  let y2 := xO y in let y3 := Pos.add y y2 in let y5 := Pos.add y3 y2 in let y7 := Pos.add y5 y2 in let y9 := Pos.add y7 y2 in
  let y11 := Pos.add y9 y2 in let y13 := Pos.add y11 y2 in let y15 := Pos.add y13 y2 in mw y y3 y5 y7 y9 y11 y13 y15 x.
Lemma pmulw_ok x y : pmulw x y = (x * y)%positive.
Proof. unfold pmulw. apply mw_ok; lia. Qed.
Definition mulw (a b : Z) : Z :=
  match a, b with
  | Zpos x, Zpos y => Zpos (pmulw x y)
  | Zneg x, Zneg y => Zpos (pmulw x y)
  | Zpos x, Zneg y => Zneg (pmulw x y)
  | Zneg x, Zpos y => Zneg (pmulw x y)
  | _, _ => 0
  end.
Lemma mulw_ok a b : mulw a b = a * b.
Proof. destruct a, b; cbn [mulw]; rewrite ?pmulw_ok; reflexivity. Qed.

(** ** Powers modulo n: [s] is meant to be the length of [n],
    [m] the quotient of 2^(2s+8) by [n] *)
Definition reduce (n m s z : Z) : Z := z - mulw (Z.shiftr (mulw (Z.shiftr z (s - 1)) m) (s + 9)) n.
Lemma reduce_ok n m s z : n <> 0 -> reduce n m s z mod n = z mod n.
Proof.
  intro N. unfold reduce. rewrite !mulw_ok. set (q := Z.shiftr _ _). replace (z - q * n) with (z + (- q) * n) by lia. now apply Z.mod_add.
Qed.
Fixpoint powm (n m s a : Z) (e : positive) : Z :=
  match e with
  | xH => a
  | xO e' => let r := powm n m s a e' in reduce n m s (mulw r r)
  | xI e' => let r := powm n m s a e' in reduce n m s (mulw a (reduce n m s (mulw r r)))
  end.
Lemma powm_ok n m s a e : n <> 0 -> powm n m s a e mod n = a ^ Zpos e mod n.
Proof.
  intro N. induction e as [e IH|e IH|]; cbn [powm]; cbv zeta.
  - rewrite reduce_ok, mulw_ok by exact N. rewrite Z.mul_mod, reduce_ok, mulw_ok by exact N. set (r := powm n m s a e) in *. clearbody r.
    rewrite <- Z.mul_mod by exact N. rewrite Pos2Z.inj_xI, Z.pow_add_r, Z.pow_1_r, Z.mul_comm by lia.
    replace (2 * Zpos e) with (Zpos e + Zpos e) by lia. rewrite Z.pow_add_r by lia.
    rewrite (Z.mul_mod (r * r)), (Z.mul_mod r r), IH by exact N. rewrite <- (Z.mul_mod (a ^ Z.pos e)), <- Z.mul_mod by exact N. reflexivity.
  - rewrite reduce_ok, !mulw_ok by exact N. set (r := powm n m s a e) in *. clearbody r.
    rewrite Pos2Z.inj_xO. replace (2 * Zpos e) with (Zpos e + Zpos e) by lia. rewrite Z.pow_add_r by lia.
    rewrite (Z.mul_mod r r), IH by exact N. rewrite <- Z.mul_mod by exact N. reflexivity.
  - now rewrite Z.pow_1_r.
Qed.
(** [a] to the power [e >= 0] modulo [n] *)
Definition fast_pow (a e n : Z) : Z :=
  match e with
  | Zpos e' => let s := Z.log2 n + 1 in powm n (2 ^ (2 * s + 8) / n) s a e' mod n
  | _ => a ^ e mod n
  end.
Lemma fast_pow_ok a e n : n <> 0 -> fast_pow a e n = a ^ e mod n.
Proof. intro N. destruct e; try reflexivity. unfold fast_pow. cbv zeta. now apply powm_ok. Qed.
