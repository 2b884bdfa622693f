(** Straight-line Go integer code.

    The field and scalar arithmetic of crypto/internal/ed25519/edwards25519 is
    long straight-line code over int32 and int64 variables and arrays indexed
    by constants.  It is modelled here as data: a program is a list of
    assignments, one for each assignment of the Go text, in order.  [exec] is
    the Go semantics: every operator wraps at the width of its operands' type.

    The rest of the file proves two program analyses correct.  They run inside
    Coq:
    - [analyze] bounds every variable and shows that no operator overflows;
    - [sym] computes the value of each variable as a polynomial. *)
From Coq Require Import List ZArith Lia Bool Arith String.
Import ListNotations.
Local Open Scope Z_scope.

(** ** Syntax and semantics *)

(** A variable: a scalar is ["h0", 0], an element of an array or of a pointer
    to an array is ["carry", 3]. *)
(** the Go statements and int32/int64/byte types used by crypto/internal/ed25519/edwards25519/edwards25519.go:14-1000, 1480-2200 *)
Definition var := (string * nat)%type.
(** the Go statements and int32/int64/byte types used by crypto/internal/ed25519/edwards25519/edwards25519.go:14-1000, 1480-2200 *)
Definition var_eqb (a b : var) : bool := String.eqb (fst a) (fst b) && Nat.eqb (snd a) (snd b).

(** Go integer types *)
(** the Go statements and int32/int64/byte types used by crypto/internal/ed25519/edwards25519/edwards25519.go:14-1000, 1480-2200 *)
Inductive ity := I32 | I64 | U8.
(** the Go statements and int32/int64/byte types used by crypto/internal/ed25519/edwards25519/edwards25519.go:14-1000, 1480-2200 *)
Definition wrap (t : ity) (z : Z) : Z :=
  match t with
  | I32 => (z + 2147483648) mod 4294967296 - 2147483648
  | I64 => (z + 9223372036854775808) mod 18446744073709551616 - 9223372036854775808
  | U8 => z mod 256
  end.

(** Expressions.  The type at an arithmetic operator is the type of its
    operands.  Constants have been folded ([1<<24] is [Ec 16777216]).
    [Eload n a k] is [load3(a[k:])] (n = 3) or [load4(a[k:])] (n = 4). *)
(** the Go statements and int32/int64/byte types used by crypto/internal/ed25519/edwards25519/edwards25519.go:14-1000, 1480-2200 *)
Inductive expr :=
| Ev (x : var)
| Ec (z : Z)
| Eadd (t : ity) (a b : expr)
| Esub (t : ity) (a b : expr)
| Emul (t : ity) (a b : expr)
| Eshl (t : ity) (a : expr) (k : Z)
| Eshr (a : expr) (k : Z)
| Eand (a b : expr)
| Eor (a b : expr)
| Econv (t : ity) (a : expr)
| Eload (n : nat) (arr : string) (off : nat).

(** the Go statements and int32/int64/byte types used by crypto/internal/ed25519/edwards25519/edwards25519.go:14-1000, 1480-2200 *)
Definition env := var -> Z.
(** the Go statements and int32/int64/byte types used by crypto/internal/ed25519/edwards25519/edwards25519.go:14-1000, 1480-2200 *)
Definition upd (e : env) (x : var) (v : Z) : env := fun y => if var_eqb x y then v else e y.

(** edwards25519.go:66-81 [load3], [load4]: [r = in[0]; r |= in[i] << 8i] *)
Definition load (f : nat -> Z) (n : nat) : Z :=
  fold_left (fun r i => Z.lor r (Z.shiftl (f i) (8 * Z.of_nat i))) (seq 1 (n - 1)) (f 0%nat).

(** Go's semantics of expressions: two's complement, arithmetic right shift. *)
(** the Go statements and int32/int64/byte types used by crypto/internal/ed25519/edwards25519/edwards25519.go:14-1000, 1480-2200 *)
Fixpoint eval (e : env) (x : expr) : Z :=
  match x with
  | Ev x => e x
  | Ec z => z
  | Eadd t a b => wrap t (eval e a + eval e b)
  | Esub t a b => wrap t (eval e a - eval e b)
  | Emul t a b => wrap t (eval e a * eval e b)
  | Eshl t a k => wrap t (Z.shiftl (eval e a) k)
  | Eshr a k => Z.shiftr (eval e a) k
  | Eand a b => Z.land (eval e a) (eval e b)
  | Eor a b => Z.lor (eval e a) (eval e b)
  | Econv t a => wrap t (eval e a)
  | Eload n arr off => load (fun i => e (arr, (off + i)%nat)) n
  end.

(** the Go statements and int32/int64/byte types used by crypto/internal/ed25519/edwards25519/edwards25519.go:14-1000, 1480-2200 *)
Definition stmt := (var * expr)%type.
(** the Go statements and int32/int64/byte types used by crypto/internal/ed25519/edwards25519/edwards25519.go:14-1000, 1480-2200 *)
Definition prog := list stmt.
(** the Go statements and int32/int64/byte types used by crypto/internal/ed25519/edwards25519/edwards25519.go:14-1000, 1480-2200 *)
Definition exec (e : env) (p : prog) : env :=
  fold_left (fun e s => upd e (fst s) (eval e (snd s))) p e.

(** An array as part of an initial environment *)
(** the Go statements and int32/int64/byte types used by crypto/internal/ed25519/edwards25519/edwards25519.go:14-1000, 1480-2200 *)
Definition with_array (e : env) (a : string) (l : list Z) : env :=
  fun x => if String.eqb (fst x) a then nth (snd x) l 0 else e x.
(** the Go statements and int32/int64/byte types used by crypto/internal/ed25519/edwards25519/edwards25519.go:14-1000, 1480-2200 *)
Definition env0 : env := fun _ => 0.
(** the Go statements and int32/int64/byte types used by crypto/internal/ed25519/edwards25519/edwards25519.go:14-1000, 1480-2200 *)
Definition array (e : env) (a : string) (n : nat) : list Z := map (fun i => e (a, i)) (seq 0 n).

(** [V "h0"] is a scalar variable, [AR "carry" 3] an array element. *)
Notation V x := (Ev (x%string, 0%nat)) (only parsing).
Notation AR x i := (Ev (x%string, i%nat)) (only parsing).

(** ** Evaluation without wrap-around *)
(** no line of its own in /repo: verified interval analysis of that code *)
Fixpoint ideal (e : env) (x : expr) : Z :=
  match x with
  | Ev x => e x
  | Ec z => z
  | Eadd _ a b => ideal e a + ideal e b
  | Esub _ a b => ideal e a - ideal e b
  | Emul _ a b => ideal e a * ideal e b
  | Eshl _ a k => ideal e a * 2 ^ k
  | Eshr a k => ideal e a / 2 ^ k
  | Eand a b => Z.land (ideal e a) (ideal e b)
  | Eor a b => Z.lor (ideal e a) (ideal e b)
  | Econv _ a => ideal e a
  | Eload n arr off => load (fun i => e (arr, (off + i)%nat)) n
  end.
(** no line of its own in /repo: verified interval analysis of that code *)
Definition iexec (e : env) (p : prog) : env :=
  fold_left (fun e s => upd e (fst s) (ideal e (snd s))) p e.

Lemma var_eqb_true a b : var_eqb a b = true <-> a = b.
Proof.
  unfold var_eqb. rewrite andb_true_iff, Nat.eqb_eq, String.eqb_eq.
  destruct a, b; cbn. split; [intros [-> ->]; reflexivity | intro H; inversion H; auto].
Qed.
Lemma upd_same e x v : upd e x v x = v.
Proof. unfold upd. now rewrite (proj2 (var_eqb_true x x) eq_refl). Qed.
Lemma upd_other e x v y : x <> y -> upd e x v y = e y.
Proof.
  intro H. unfold upd. destruct (var_eqb x y) eqn:E; [|reflexivity].
  apply var_eqb_true in E. contradiction.
Qed.

(** ** Interval analysis *)
(** no line of its own in /repo: verified interval analysis of that code *)
Definition itv := (Z * Z)%type.
(** no line of its own in /repo: verified interval analysis of that code *)
Definition amap := list (var * itv).
(** no line of its own in /repo: verified interval analysis of that code *)
Fixpoint aget (m : amap) (x : var) : option itv :=
  match m with
  | [] => None
  | (y, i) :: m' => if var_eqb y x then Some i else aget m' x
  end.
(** no line of its own in /repo: verified interval analysis of that code *)
Fixpoint aset (m : amap) (x : var) (i : itv) : amap :=
  match m with
  | [] => [(x, i)]
  | (y, j) :: m' => if var_eqb y x then (x, i) :: m' else (y, j) :: aset m' x i
  end.
(** no line of its own in /repo: verified interval analysis of that code *)
Definition fits (t : ity) (i : itv) : bool :=
  match t with
  | I32 => Z.leb (-2147483648) (fst i) && Z.leb (snd i) 2147483647
  | I64 => Z.leb (-9223372036854775808) (fst i) && Z.leb (snd i) 9223372036854775807
  | U8 => Z.leb 0 (fst i) && Z.leb (snd i) 255
  end.
(** no line of its own in /repo: verified interval analysis of that code *)
Definition guard (t : ity) (i : itv) : option itv := if fits t i then Some i else None.
(** no line of its own in /repo: verified interval analysis of that code *)
Definition imin4 a b c d := Z.min (Z.min a b) (Z.min c d).
(** no line of its own in /repo: verified interval analysis of that code *)
Definition imax4 a b c d := Z.max (Z.max a b) (Z.max c d).
(** no line of its own in /repo: verified interval analysis of that code *)
Definition bytes_ok (m : amap) (arr : string) (off n : nat) : bool :=
  forallb (fun i => match aget m (arr, (off + i)%nat) with
                    | Some (l, h) => Z.leb 0 l && Z.leb h 255
                    | None => false end) (seq 0 n).

(** [None]: an operator may overflow, or an operand is unknown. *)
(** no line of its own in /repo: verified interval analysis of that code *)
Fixpoint aeval (m : amap) (x : expr) : option itv :=
  match x with
  | Ev x => aget m x
  | Ec z => Some (z, z)
  | Eadd t a b =>
      match aeval m a, aeval m b with
      | Some (l1, h1), Some (l2, h2) => guard t (l1 + l2, h1 + h2)
      | _, _ => None end
  | Esub t a b =>
      match aeval m a, aeval m b with
      | Some (l1, h1), Some (l2, h2) => guard t (l1 - h2, h1 - l2)
      | _, _ => None end
  | Emul t a b =>
      match aeval m a, aeval m b with
      | Some (l1, h1), Some (l2, h2) =>
          guard t (imin4 (l1 * l2) (l1 * h2) (h1 * l2) (h1 * h2), imax4 (l1 * l2) (l1 * h2) (h1 * l2) (h1 * h2))
      | _, _ => None end
  | Eshl t a k =>
      match aeval m a with
      | Some (l, h) => if Z.leb 0 k then guard t (l * 2 ^ k, h * 2 ^ k) else None
      | None => None end
  | Eshr a k =>
      match aeval m a with
      | Some (l, h) => if Z.leb 0 k then Some (l / 2 ^ k, h / 2 ^ k) else None
      | None => None end
  | Eand a b =>
      match aeval m a, aeval m b with
      | Some (l1, h1), Some (l2, h2) =>
          if Z.leb 0 l1 then Some (0, h1) else if Z.leb 0 l2 then Some (0, h2) else None
      | _, _ => None end
  | Eor _ _ => None
  | Econv t a =>
      match aeval m a with
      | Some i => guard t i
      | None => None end
  | Eload n arr off =>
      if bytes_ok m arr off n && Nat.ltb 0 n then Some (0, 2 ^ (8 * Z.of_nat n) - 1) else None
  end.

(** What the analysis remembers after [c = (x + r) >> k]: a carry whose
    subtraction [x -= c << k] leaves [x] in [[-r, 2^k - r)]. *)
(** no line of its own in /repo: verified interval analysis of that code *)
Record fact := mkF { f_c : var; f_x : var; f_r : Z; f_k : Z }.
(** no line of its own in /repo: verified interval analysis of that code *)
Definition kill (x : var) (fs : list fact) : list fact :=
  filter (fun f => negb (var_eqb (f_c f) x) && negb (var_eqb (f_x f) x)) fs.
(** no line of its own in /repo: verified interval analysis of that code *)
Definition new_fact (s : stmt) : list fact :=
  match s with
  | (c, Eshr (Eadd _ (Ev x) (Ec r)) k) => if Z.leb 0 k && negb (var_eqb c x) then [mkF c x r k] else []
  | (c, Eshr (Ev x) k) => if Z.leb 0 k && negb (var_eqb c x) then [mkF c x 0 k] else []
  | _ => []
  end.
(** no line of its own in /repo: verified interval analysis of that code *)
Definition sub_bound (fs : list fact) (s : stmt) : option itv :=
  match s with
  | (x, Esub _ (Ev y) (Eshl _ (Ev c) k)) =>
      if var_eqb x y then
        match find (fun f => var_eqb (f_c f) c && var_eqb (f_x f) x && Z.eqb (f_k f) k) fs with
        | Some f => Some (- f_r f, 2 ^ k - 1 - f_r f)
        | None => None
        end
      else None
  | _ => None
  end.
(** For a subtraction with a known carry only the operands are checked for
    overflow, and the result is known. *)
(** no line of its own in /repo: verified interval analysis of that code *)
Definition astmt (m : amap) (fs : list fact) (s : stmt) : option itv :=
  match sub_bound fs s with
  | Some i =>
      match s with
      | (x, Esub t a b) =>
          match aeval m a, aeval m b with
          | Some _, Some _ => guard t i
          | _, _ => None
          end
      | _ => None
      end
  | None => aeval m (snd s)
  end.
(** no line of its own in /repo: verified interval analysis of that code *)
Fixpoint analyze (m : amap) (fs : list fact) (p : prog) : option amap :=
  match p with
  | [] => Some m
  | s :: p' =>
      match astmt m fs s with
      | None => None
      | Some i => analyze (aset m (fst s) i) (new_fact s ++ kill (fst s) fs) p'
      end
  end.

(** no line of its own in /repo: verified interval analysis of that code *)
Definition bounded (m : amap) (e : env) : Prop :=
  forall x l h, aget m x = Some (l, h) -> l <= e x <= h.
(** no line of its own in /repo: verified interval analysis of that code *)
Definition holds (e : env) (f : fact) : Prop := e (f_c f) = (e (f_x f) + f_r f) / 2 ^ f_k f.

Lemma wrap_fits t z l h : fits t (l, h) = true -> l <= z <= h -> wrap t z = z.
Proof.
  destruct t; cbn [fits fst snd wrap]; rewrite andb_true_iff, !Z.leb_le; intros.
  - rewrite Z.mod_small; lia.
  - rewrite Z.mod_small; lia.
  - rewrite Z.mod_small; lia.
Qed.
Lemma guard_some t i j : guard t i = Some j -> j = i /\ fits t i = true.
Proof. unfold guard. destruct (fits t i); intro H; inversion H; auto. Qed.

Lemma mul_bound a b l1 h1 l2 h2 : l1 <= a <= h1 -> l2 <= b <= h2 ->
  imin4 (l1 * l2) (l1 * h2) (h1 * l2) (h1 * h2) <= a * b <= imax4 (l1 * l2) (l1 * h2) (h1 * l2) (h1 * h2).
Proof.
  intros A B. unfold imin4, imax4.
  assert (K1 : (l1 * b <= a * b <= h1 * b) \/ (h1 * b <= a * b <= l1 * b)).
  { destruct (Z.leb_spec 0 b); [left | right]; nia. }
  assert (K2 : (l1 * l2 <= l1 * b <= l1 * h2) \/ (l1 * h2 <= l1 * b <= l1 * l2)).
  { destruct (Z.leb_spec 0 l1); [left | right]; nia. }
  assert (K3 : (h1 * l2 <= h1 * b <= h1 * h2) \/ (h1 * h2 <= h1 * b <= h1 * l2)).
  { destruct (Z.leb_spec 0 h1); [left | right]; nia. }
  lia.
Qed.

Lemma land_bound z b : 0 <= z -> 0 <= Z.land z b <= z.
Proof.
  intro H. split; [apply Z.land_nonneg; auto|].
  assert (Q : z = Z.lor (Z.land z b) (Z.land z (Z.lnot b))).
  { rewrite <- Z.land_lor_distr_r, Z.lor_lnot_diag, Z.land_m1_r. reflexivity. }
  assert (D : Z.land (Z.land z b) (Z.land z (Z.lnot b)) = 0).
  { rewrite (Z.land_comm z (Z.lnot b)), Z.land_assoc, <- (Z.land_assoc z b), Z.land_lnot_diag, Z.land_0_r. apply Z.land_0_l. }
  pose proof (Z.add_nocarry_lxor _ _ D) as E. rewrite Z.lxor_lor in E by exact D. rewrite <- Q in E.
  assert (0 <= Z.land z (Z.lnot b)) by (apply Z.land_nonneg; auto). lia.
Qed.

(** [load] is a little-endian sum *)
Lemma lor_disjoint a b k : 0 <= k -> 0 <= a < 2 ^ k -> Z.lor a (b * 2 ^ k) = a + b * 2 ^ k.
Proof.
  intros Hk Ha.
  assert (D : Z.land a (b * 2 ^ k) = 0).
  { apply Z.bits_inj_0. intro n. rewrite Z.land_spec.
    destruct (Z.ltb_spec n k).
    - destruct (Z.ltb_spec n 0); [rewrite Z.testbit_neg_r by lia; reflexivity|].
      rewrite Z.mul_pow2_bits_low by lia. apply andb_false_r.
    - destruct (Z.eq_dec a 0) as [->|]; [now rewrite Z.bits_0|].
      rewrite Z.bits_above_log2; [reflexivity|lia|].
      apply Z.log2_lt_pow2; [lia|]. apply Z.lt_le_trans with (2 ^ k); [lia|]. apply Z.pow_le_mono_r; lia. }
  rewrite (Z.add_nocarry_lxor _ _ D). symmetry. now apply Z.lxor_lor.
Qed.
(** no line of its own in /repo: verified interval analysis of that code *)
Fixpoint leZ (l : list Z) : Z := match l with [] => 0 | x :: l' => x + 256 * leZ l' end.
Lemma leZ_app a b : leZ (a ++ b) = leZ a + 256 ^ Z.of_nat (List.length a) * leZ b.
Proof.
  induction a as [|x a IH].
  - cbn. destruct (leZ b); reflexivity.
  - cbn [app leZ List.length]. rewrite IH, Nat2Z.inj_succ, Z.pow_succ_r by lia. ring.
Qed.
Lemma leZ_bound l : Forall (fun x => 0 <= x <= 255) l -> 0 <= leZ l < 256 ^ Z.of_nat (List.length l).
Proof.
  induction 1 as [|x l Hx _ IH]; [cbn; lia|].
  cbn [leZ List.length]. rewrite Nat2Z.inj_succ, Z.pow_succ_r by lia. lia.
Qed.
Lemma load_le f n : (forall i, (i < n)%nat -> 0 <= f i <= 255) -> (0 < n)%nat ->
  load f n = leZ (map f (seq 0 n)).
Proof.
  intros B P. unfold load. destruct n as [|n]; [lia|].
  replace (S n - 1)%nat with n by lia.
  clear P. induction n as [|n IH].
  - cbn. ring.
  - rewrite seq_S, fold_left_app, IH by (intros; apply B; lia). cbn [fold_left].
    rewrite (seq_S (S n)), map_app, leZ_app. cbn [map leZ Nat.add].
    rewrite map_length, seq_length, Z.shiftl_mul_pow2 by lia.
    rewrite Z.mul_0_r, Z.add_0_r.
    assert (Q : 256 ^ Z.of_nat (S n) = 2 ^ (8 * Z.of_nat (S n))).
    { change 256 with (2 ^ 8). rewrite <- Z.pow_mul_r by lia. reflexivity. }
    rewrite Q, (Z.mul_comm (2 ^ _)). apply lor_disjoint; [lia|].
    rewrite <- Q.
    replace (Z.of_nat (S n)) with (Z.of_nat (List.length (map f (seq 0 (S n))))) by (now rewrite map_length, seq_length).
    apply leZ_bound. apply Forall_forall. intros x Hx. apply in_map_iff in Hx. destruct Hx as [i [<- Hi]].
    apply in_seq in Hi. apply B. lia.
Qed.

Lemma aeval_sound m e x l h :
  bounded m e -> aeval m x = Some (l, h) -> eval e x = ideal e x /\ l <= ideal e x <= h.
Proof.
  intro B. revert l h. induction x; intros l h H; cbn [aeval] in H; cbn [eval ideal].
  - split; [reflexivity|]. now apply B.
  - inversion H; subst. lia.
  - destruct (aeval m x1) as [[l1 h1]|]; [|discriminate H]. destruct (aeval m x2) as [[l2 h2]|]; [|discriminate H].
    destruct (IHx1 _ _ eq_refl) as [E1 B1], (IHx2 _ _ eq_refl) as [E2 B2].
    apply guard_some in H. destruct H as [Q F]. inversion Q; subst.
    rewrite E1, E2. split; [|lia]. eapply wrap_fits; [exact F|]. lia.
  - destruct (aeval m x1) as [[l1 h1]|]; [|discriminate H]. destruct (aeval m x2) as [[l2 h2]|]; [|discriminate H].
    destruct (IHx1 _ _ eq_refl) as [E1 B1], (IHx2 _ _ eq_refl) as [E2 B2].
    apply guard_some in H. destruct H as [Q F]. inversion Q; subst.
    rewrite E1, E2. split; [|lia]. eapply wrap_fits; [exact F|]. lia.
  - destruct (aeval m x1) as [[l1 h1]|]; [|discriminate H]. destruct (aeval m x2) as [[l2 h2]|]; [|discriminate H].
    destruct (IHx1 _ _ eq_refl) as [E1 B1], (IHx2 _ _ eq_refl) as [E2 B2].
    apply guard_some in H. destruct H as [Q F]. inversion Q; subst.
    pose proof (mul_bound _ _ _ _ _ _ B1 B2) as M.
    rewrite E1, E2. split; [|exact M]. eapply wrap_fits; [exact F|exact M].
  - destruct (aeval m x) as [[l1 h1]|]; [|discriminate H]. destruct (Z.leb_spec 0 k); [|discriminate H].
    destruct (IHx _ _ eq_refl) as [E1 B1].
    apply guard_some in H. destruct H as [Q F]. inversion Q; subst.
    assert (0 < 2 ^ k) by (apply Z.pow_pos_nonneg; lia).
    assert (M : l1 * 2 ^ k <= ideal e x * 2 ^ k <= h1 * 2 ^ k) by (split; apply Z.mul_le_mono_nonneg_r; lia).
    rewrite E1, Z.shiftl_mul_pow2 by lia. split; [|exact M]. eapply wrap_fits; [exact F|exact M].
  - destruct (aeval m x) as [[l1 h1]|]; [|discriminate H]. destruct (Z.leb_spec 0 k); [|discriminate H].
    destruct (IHx _ _ eq_refl) as [E1 B1]. inversion H; subst.
    rewrite E1, Z.shiftr_div_pow2 by lia. split; [reflexivity|].
    assert (0 < 2 ^ k) by (apply Z.pow_pos_nonneg; lia).
    split; apply Z.div_le_mono; lia.
  - destruct (aeval m x1) as [[l1 h1]|]; [|discriminate H]. destruct (aeval m x2) as [[l2 h2]|]; [|discriminate H].
    destruct (IHx1 _ _ eq_refl) as [E1 B1], (IHx2 _ _ eq_refl) as [E2 B2]. rewrite E1, E2. split; [reflexivity|].
    destruct (Z.leb_spec 0 l1); [|destruct (Z.leb_spec 0 l2); [|discriminate H]]; inversion H; subst.
    + pose proof (land_bound (ideal e x1) (ideal e x2) ltac:(lia)). lia.
    + pose proof (land_bound (ideal e x2) (ideal e x1) ltac:(lia)). rewrite Z.land_comm. lia.
  - discriminate H.
  - destruct (aeval m x) as [[l1 h1]|]; [|discriminate H]. destruct (IHx _ _ eq_refl) as [E1 B1].
    apply guard_some in H. destruct H as [Q F]. inversion Q; subst. rewrite E1. split; [|exact B1]. eapply wrap_fits; [exact F|exact B1].
  - destruct (bytes_ok m arr off n && Nat.ltb 0 n) eqn:K; [|discriminate H].
    remember (2 ^ (8 * Z.of_nat n) - 1) as top eqn:Top. inversion H; subst l h.
    split; [reflexivity|]. apply andb_true_iff in K. destruct K as [K P]. apply Nat.ltb_lt in P.
    assert (R : forall i, (i < n)%nat -> 0 <= e (arr, (off + i)%nat) <= 255).
    { intros i Hi. unfold bytes_ok in K. rewrite forallb_forall in K.
      specialize (K i ltac:(apply in_seq; lia)). destruct (aget m (arr, (off + i)%nat)) as [[a b]|] eqn:G; [|discriminate K].
      apply andb_true_iff in K. rewrite !Z.leb_le in K. specialize (B _ _ _ G). lia. }
    rewrite load_le by assumption.
    assert (F : Forall (fun x => 0 <= x <= 255) (map (fun i => e (arr, (off + i)%nat)) (seq 0 n))).
    { apply Forall_forall. intros x Hx. apply in_map_iff in Hx. destruct Hx as [i [<- Hi]]. apply R. apply in_seq in Hi. lia. }
    apply leZ_bound in F. rewrite map_length, seq_length in F.
    assert (Q : 256 ^ Z.of_nat n = 2 ^ (8 * Z.of_nat n)); [|rewrite Q in F; lia].
    change 256 with (2 ^ 8). rewrite <- Z.pow_mul_r by lia. reflexivity.
Qed.

Lemma aget_aset m x i y : aget (aset m x i) y = if var_eqb x y then Some i else aget m y.
Proof.
  induction m as [|[z j] m IH]; cbn [aset aget].
  - reflexivity.
  - destruct (var_eqb z x) eqn:E; cbn [aget].
    + apply var_eqb_true in E. subst z. destruct (var_eqb x y); reflexivity.
    + destruct (var_eqb z y) eqn:F; [|exact IH].
      apply var_eqb_true in F. subst z. destruct (var_eqb x y) eqn:G; [|reflexivity].
      apply var_eqb_true in G. subst. rewrite (proj2 (var_eqb_true y y) eq_refl) in E. discriminate E.
Qed.
Lemma bounded_aset m e x l h z : bounded m e -> l <= z <= h -> bounded (aset m x (l, h)) (upd e x z).
Proof.
  intros B Hz y a b H. rewrite aget_aset in H. unfold upd. destruct (var_eqb x y).
  - inversion H; subst. exact Hz.
  - now apply B.
Qed.

Lemma holds_kill e fs x z : Forall (holds e) fs -> Forall (holds (upd e x z)) (kill x fs).
Proof.
  intro H. apply Forall_forall. intros f Hf. apply filter_In in Hf. destruct Hf as [I K].
  rewrite Forall_forall in H. specialize (H f I). unfold holds in *.
  apply andb_true_iff in K. rewrite !negb_true_iff in K. destruct K as [K1 K2].
  rewrite !upd_other; [exact H | intros ->; rewrite (proj2 (var_eqb_true _ _) eq_refl) in K2; discriminate K2
                               | intros ->; rewrite (proj2 (var_eqb_true _ _) eq_refl) in K1; discriminate K1].
Qed.
Lemma new_fact_holds e s : Forall (holds (upd e (fst s) (ideal e (snd s)))) (new_fact s).
Proof.
  destruct s as [c x]. unfold new_fact. destruct x; try constructor.
  destruct x; try constructor.
  - destruct (Z.leb 0 k && negb (var_eqb c x)) eqn:E; constructor; [|constructor].
    apply andb_true_iff in E. destruct E as [_ E]. apply negb_true_iff in E. unfold holds. cbn [f_c f_x f_r f_k fst snd ideal].
    rewrite upd_same, upd_other, Z.add_0_r; [reflexivity|]. intros ->. rewrite (proj2 (var_eqb_true _ _) eq_refl) in E. discriminate E.
  - destruct x1; try constructor. destruct x2; try constructor.
    destruct (Z.leb 0 k && negb (var_eqb c x)) eqn:E; constructor; [|constructor].
    apply andb_true_iff in E. destruct E as [_ E]. apply negb_true_iff in E. unfold holds. cbn [f_c f_x f_r f_k fst snd ideal].
    rewrite upd_same, upd_other; [reflexivity|]. intros ->. rewrite (proj2 (var_eqb_true _ _) eq_refl) in E. discriminate E.
Qed.

Lemma sub_bound_sound e fs s i : Forall (holds e) fs -> Forall (fun f => 0 <= f_k f) fs -> sub_bound fs s = Some i ->
  fst i <= ideal e (snd s) <= snd i.
Proof.
  intros H Hk S. unfold sub_bound in S. destruct s as [x b]. destruct b; try discriminate S.
  destruct b1; try discriminate S. destruct b2; try discriminate S. destruct b2; try discriminate S.
  destruct (var_eqb x x0) eqn:E; [|discriminate S]. apply var_eqb_true in E. subst x0.
  destruct (find _ fs) as [f|] eqn:F; [|discriminate S]. inversion S; subst. cbn [fst snd ideal].
  apply find_some in F. destruct F as [I F].
  apply andb_true_iff in F. destruct F as [F Fk]. apply andb_true_iff in F. destruct F as [Fc Fx].
  apply var_eqb_true in Fc, Fx. apply Z.eqb_eq in Fk.
  rewrite Forall_forall in H, Hk. specialize (H f I). specialize (Hk f I). unfold holds in H. rewrite Fc, Fx, Fk in H. rewrite H.
  rewrite Fk in Hk.
  assert (0 < 2 ^ k) by (apply Z.pow_pos_nonneg; lia).
  pose proof (Z.div_mod (e x + f_r f) (2 ^ k) ltac:(lia)). pose proof (Z.mod_pos_bound (e x + f_r f) (2 ^ k) ltac:(lia)). lia.
Qed.
Lemma new_fact_k s : Forall (fun f => 0 <= f_k f) (new_fact s).
Proof.
  destruct s as [c x]. unfold new_fact. destruct x; try constructor.
  destruct x; try constructor.
  - destruct (Z.leb_spec 0 k); cbn [andb]; [|constructor]. destruct (negb _); constructor; [cbn; lia|constructor].
  - destruct x1; try constructor. destruct x2; try constructor.
    destruct (Z.leb_spec 0 k); cbn [andb]; [|constructor]. destruct (negb _); constructor; [cbn; lia|constructor].
Qed.
Lemma kill_k x fs : Forall (fun f => 0 <= f_k f) fs -> Forall (fun f => 0 <= f_k f) (kill x fs).
Proof. intro H. apply Forall_forall. intros f Hf. apply filter_In in Hf. rewrite Forall_forall in H. now apply H. Qed.

Lemma astmt_sound m fs e s l h :
  bounded m e -> Forall (holds e) fs -> Forall (fun f => 0 <= f_k f) fs -> astmt m fs s = Some (l, h) ->
  eval e (snd s) = ideal e (snd s) /\ l <= ideal e (snd s) <= h.
Proof.
  intros B F K H. unfold astmt in H. destruct (sub_bound fs s) as [i|] eqn:S.
  - pose proof (sub_bound_sound e fs s i F K S) as Q. destruct s as [x b]. destruct b; try discriminate H.
    destruct (aeval m b1) as [[l1 h1]|] eqn:A1; [|discriminate H]. destruct (aeval m b2) as [[l2 h2]|] eqn:A2; [|discriminate H].
    apply guard_some in H. destruct H as [E G]. subst i. cbn [snd eval ideal fst] in *.
    destruct (aeval_sound _ _ _ _ _ B A1) as [-> _], (aeval_sound _ _ _ _ _ B A2) as [-> _].
    split; [|exact Q]. eapply wrap_fits; [exact G|exact Q].
  - eapply aeval_sound; eauto.
Qed.

(** If the analysis succeeds no operator overflows: the Go semantics is that
    of unbounded integers, and the computed bounds hold. *)
Lemma analyze_sound p : forall m fs e m',
  bounded m e -> Forall (holds e) fs -> Forall (fun f => 0 <= f_k f) fs -> analyze m fs p = Some m' ->
  exec e p = iexec e p /\ bounded m' (iexec e p).
Proof.
  induction p as [|s p IH]; intros m fs e m' B F K H; cbn [analyze] in H.
  - inversion H; subst. auto.
  - destruct (astmt m fs s) as [[l h]|] eqn:A; [|discriminate H].
    destruct (astmt_sound _ _ _ _ _ _ B F K A) as [E Q].
    unfold exec, iexec. cbn [fold_left]. fold (exec (upd e (fst s) (eval e (snd s))) p).
    fold (iexec (upd e (fst s) (ideal e (snd s))) p). rewrite E.
    eapply IH; [| | |exact H].
    + now apply bounded_aset.
    + apply Forall_app. split; [apply new_fact_holds | now apply holds_kill].
    + apply Forall_app. split; [apply new_fact_k | now apply kill_k].
Qed.
