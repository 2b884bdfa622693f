(** Number theory used for the curve: Fermat's little theorem, Pocklington's
    criterion, and the primality of 2^255-19 and of the group order.  Nothing
    here models code. *)
From Coq Require Import List ZArith Lia Bool Arith Znumtheory Zpow_facts Permutation.
From Verif Require Import FastZ.
Import ListNotations.
Local Open Scope Z_scope.

(** ** Products over finite commutative groups *)
Section Product.
  Variables (G : Type) (op : G -> G -> G) (e : G).
  Hypothesis op_assoc : forall a b c, op a (op b c) = op (op a b) c.
  Hypothesis op_comm : forall a b, op a b = op b a.
  Hypothesis op_e : op e e = e.
  Definition gpow (x : G) (n : nat) : G := Nat.iter n (op x) e.
  Definition prod (l : list G) : G := fold_right op e l.

  Lemma prod_perm l l' : Permutation l l' -> prod l = prod l'.
  Proof.
    unfold prod. induction 1; cbn [fold_right]; [reflexivity|congruence| |congruence].
    rewrite !op_assoc. f_equal. apply op_comm.
  Qed.
  Lemma prod_map x l : prod (map (op x) l) = op (gpow x (length l)) (prod l).
  Proof.
    unfold prod, gpow. induction l as [|a l IH]; cbn [map fold_right length Nat.iter nat_rect]; [now rewrite op_e|].
    rewrite IH. change (nat_rect (fun _ => G) e (fun _ => op x) (length l)) with (Nat.iter (length l) (op x) e). set (u := Nat.iter _ _ _). set (w := fold_right _ _ _).
    rewrite <- !op_assoc. f_equal. rewrite !op_assoc. f_equal. apply op_comm.
  Qed.
  Lemma lagrange_prod x l : NoDup l -> (forall y, In y l -> In (op x y) l) ->
    (forall y z, In y l -> In z l -> op x y = op x z -> y = z) ->
    op (gpow x (length l)) (prod l) = prod l.
  Proof.
    intros N C I. rewrite <- prod_map. apply prod_perm.
    assert (N' : NoDup (map (op x) l)).
    { clear C. induction N as [|a l Ha N IH]; cbn [map]; constructor.
      - rewrite in_map_iff. intros (b & E & Hb). apply Ha. rewrite <- (I b a); auto using in_eq, in_cons.
      - apply IH. intros y z Hy Hz. apply I; now right. }
    apply NoDup_Permutation_bis; [exact N'|now rewrite map_length|].
    intros z Hz. apply in_map_iff in Hz. destruct Hz as (y & <- & Hy). now apply C.
  Qed.
End Product.

(** ** Fermat *)
Lemma iter_mulmod r x n : 1 < r -> Nat.iter n (fun z => (x * z) mod r) 1 = x ^ Z.of_nat n mod r.
Proof.
  intro R. induction n as [|n IH].
  - cbn [Nat.iter nat_rect]. change (x ^ Z.of_nat 0) with 1. now rewrite Z.mod_small by lia.
  - change (Nat.iter (S n) (fun z => (x * z) mod r) 1) with ((x * Nat.iter n (fun z => (x * z) mod r) 1) mod r).
    rewrite IH, Nat2Z.inj_succ, Z.pow_succ_r by lia. now rewrite Zmult_mod_idemp_r.
Qed.
Lemma prod_coprime r l : prime r -> (forall y, In y l -> ~ (r | y)) -> ~ (r | prod Z (fun a b => (a * b) mod r) 1 l).
Proof.
  intros P H. unfold prod. pose proof (prime_ge_2 _ P). induction l as [|a l IH]; cbn [fold_right].
  - intro D. apply Z.divide_1_r in D. lia.
  - intro D. apply Z.mod_divide in D; [|lia]. rewrite Z.mod_mod in D by lia. apply Z.mod_divide in D; [|lia].
    apply prime_mult in D; [|exact P]. destruct D as [D|D].
    + apply (H a); [now left|exact D].
    + apply IH; [intros y Hy; apply H; now right|exact D].
Qed.
Theorem fermat r a : prime r -> ~ (r | a) -> a ^ (r - 1) mod r = 1.
Proof.
  intros P Na. pose proof (prime_ge_2 _ P) as R.
  set (op := fun a b => (a * b) mod r).
  set (l := map Z.of_nat (seq 1 (Z.to_nat (r - 1)))).
  assert (Hl : forall y, In y l <-> 1 <= y < r).
  { intro y. unfold l. rewrite in_map_iff. split.
    - intros (n & <- & Hn). apply in_seq in Hn. lia.
    - intro Hy. exists (Z.to_nat y). split; [lia|]. apply in_seq. lia. }
  assert (Nd : forall y, 1 <= y < r -> ~ (r | y)).
  { intros y Hy D. apply Z.divide_pos_le in D; lia. }
  assert (Q := lagrange_prod Z op 1).
  specialize (Q ltac:(intros; unfold op; rewrite Zmult_mod_idemp_l, Zmult_mod_idemp_r; f_equal; ring)).
  specialize (Q ltac:(intros; unfold op; f_equal; ring)).
  specialize (Q ltac:(unfold op; now rewrite Z.mod_small by lia)).
  specialize (Q a l).
  assert (Len : length l = Z.to_nat (r - 1)) by (unfold l; now rewrite map_length, seq_length).
  assert (E : op (gpow Z op 1 a (length l)) (prod Z op 1 l) = prod Z op 1 l).
  { apply Q.
    - unfold l. apply FinFun.Injective_map_NoDup; [|apply seq_NoDup]. intros x y. apply Nat2Z.inj.
    - intros y Hy. rewrite Hl in *. unfold op. pose proof (Z.mod_pos_bound (a * y) r ltac:(lia)).
      assert ((a * y) mod r <> 0); [|lia]. intro D. apply Z.mod_divide in D; [|lia].
      apply prime_mult in D; [|exact P]. destruct D; [tauto|]. now apply (Nd y).
    - intros y z Hy Hz Exy. rewrite Hl in *. unfold op in Exy.
      assert (D : (r | a * (y - z))).
      { apply Z.mod_divide; [lia|]. rewrite Z.mul_sub_distr_l, Zminus_mod, Exy, Z.sub_diag. now apply Z.mod_0_l; lia. }
      apply prime_mult in D; [|exact P]. destruct D as [D|D]; [tauto|].
      destruct (Z.eq_dec y z) as [|Ne]; [assumption|]. exfalso.
      apply Z.divide_abs_r in D. apply Z.divide_pos_le in D; lia. }
  rewrite Len in E. unfold gpow in E. unfold op in E at 2. rewrite iter_mulmod in E by lia. rewrite Z2Nat.id in E by lia.
  set (W := prod Z op 1 l) in *.
  assert (NW : ~ (r | W)).
  { apply prod_coprime; [exact P|]. intros y Hy. apply Nd. now apply Hl. }
  unfold op in E. rewrite Zmult_mod_idemp_l in E.
  assert (D : (r | (a ^ (r - 1) - 1) * W)).
  { apply Z.mod_divide; [lia|]. rewrite Z.mul_sub_distr_r, Zminus_mod, E, Z.mul_1_l.
    assert (W mod r = W).
    { rewrite <- E at 2. rewrite <- E at 1. now rewrite Z.mod_mod by lia. }
    rewrite H, Z.sub_diag. apply Z.mod_0_l. lia. }
  apply prime_mult in D; [|exact P]. destruct D as [[k D]|D]; [|tauto].
  replace (a ^ (r - 1)) with (1 + k * r) by lia. rewrite Z_mod_plus_full. apply Z.mod_small. lia.
Qed.

(** ** Prime divisors *)
Lemma prime_divisor_exists n : 1 < n -> exists r, prime r /\ (r | n).
Proof.
  intro H. assert (0 <= n) as N by lia. revert H. pattern n. apply Zlt_0_ind; [|exact N]. clear.
  intros n IH _ H. destruct (prime_dec n) as [P|P]; [exists n; split; [exact P|apply Z.divide_refl]|].
  destruct (not_prime_divide n H P) as (d & Hd & D).
  destruct (IH d ltac:(lia) ltac:(lia)) as (r & Pr & Dr). exists r. split; [exact Pr|]. now apply Z.divide_trans with d.
Qed.
Lemma small_prime_divisor n : 1 < n -> ~ prime n -> exists r, prime r /\ (r | n) /\ r * r <= n.
Proof.
  intros H P. destruct (not_prime_divide n H P) as (d & Hd & [k D]).
  assert (0 < k) by nia. assert (k <> 1) by (intro; subst; lia).
  assert (M : exists m, 1 < m /\ (m | n) /\ m * m <= n).
  { destruct (Z.le_gt_cases (d * d) n); [exists d|exists k]; repeat split; try lia; try nia; [now exists k|].
    exists d. lia. }
  destruct M as (m & M1 & M2 & M3). destruct (prime_divisor_exists m M1) as (r & Pr & Dr).
  exists r. split; [exact Pr|]. split; [now apply Z.divide_trans with m|].
  apply Z.divide_pos_le in Dr; [|lia]. pose proof (prime_ge_2 _ Pr). nia.
Qed.

(** ** Trial division, for the small primes *)
Definition trial (n : Z) (k : nat) : bool :=
  Z.ltb 1 n && Z.ltb n ((Z.of_nat k) * (Z.of_nat k)) &&
  forallb (fun d => negb (Z.eqb (n mod Z.of_nat d) 0)) (seq 2 (k - 2)).
Lemma trial_sound n k : trial n k = true -> prime n.
Proof.
  unfold trial. rewrite !andb_true_iff, !Z.ltb_lt, forallb_forall. intros [[H1 H2] H].
  destruct (prime_dec n) as [P|P]; [exact P|]. exfalso.
  destruct (small_prime_divisor n H1 P) as (r & Pr & D & Q). pose proof (prime_ge_2 _ Pr).
  specialize (H (Z.to_nat r) ltac:(apply in_seq; nia)). rewrite Z2Nat.id in H by lia.
  apply negb_true_iff, Z.eqb_neq in H. apply H. now apply Z.mod_divide; [lia|].
Qed.

(** ** Pocklington *)
Lemma pow_mod_eq a b n m : 0 <= m -> a mod n = b mod n -> a ^ m mod n = b ^ m mod n.
Proof.
  intros M E. pattern m. apply natlike_ind; [reflexivity| |exact M].
  intros x Hx IH. rewrite !Z.pow_succ_r by lia. now rewrite Zmult_mod, E, IH, <- Zmult_mod.
Qed.
Lemma bezout_nat q m : 0 < q -> 0 < m -> Z.gcd q m = 1 -> exists u v, 0 <= u /\ 0 <= v /\ u * q = v * m + 1.
Proof.
  intros Q M G. destruct (Z.gcd_bezout q m 1 G) as (u & v & E).
  exists (u + m * (Z.abs u + Z.abs v)), (q * (Z.abs u + Z.abs v) - v). repeat split; nia.
Qed.
Lemma order_divides r q b : prime r -> prime q -> ~ (r | b) -> b ^ q mod r = 1 -> b mod r <> 1 -> (q | r - 1).
Proof.
  intros Pr Pq Nb E1 E2. pose proof (prime_ge_2 _ Pr). pose proof (prime_ge_2 _ Pq).
  destruct (Zdivide_dec q (r - 1)) as [D|D]; [exact D|]. exfalso. apply E2.
  assert (G : Z.gcd q (r - 1) = 1).
  { apply Zgcd_1_rel_prime. now apply prime_rel_prime. }
  destruct (bezout_nat q (r - 1) ltac:(lia) ltac:(lia) G) as (u & v & U & V & E).
  assert (One : 1 mod r = 1) by (apply Z.mod_small; lia).
  assert (A : b ^ (u * q) mod r = 1).
  { rewrite Z.mul_comm, Z.pow_mul_r by lia. rewrite <- One in E1. rewrite (pow_mod_eq (b ^ q) 1 r u U E1).
    rewrite Z.pow_1_l by lia. exact One. }
  rewrite E, Z.pow_add_r, Z.pow_1_r in A by nia.
  rewrite (Z.mul_comm v), Z.pow_mul_r in A by lia.
  assert (F : b ^ (r - 1) mod r = 1 mod r) by (rewrite One; exact (fermat r b Pr Nb)).
  rewrite Zmult_mod, (pow_mod_eq (b ^ (r - 1)) 1 r v V F), Z.pow_1_l, One, Z.mul_1_l, Z.mod_mod in A by lia. exact A.
Qed.
Definition pock (n : Z) (ws : list (Z * Z)) : bool :=
  Z.ltb 1 n && Z.ltb n ((fold_right Z.mul 1 (map fst ws) + 1) * (fold_right Z.mul 1 (map fst ws) + 1)) &&
  forallb (fun w => let k := (n - 1) / fst w in
                    Z.eqb ((n - 1) mod fst w) 0 &&
                    let c := fast_pow (snd w) k n in
                    Z.eqb (if Z.ltb (2 * k) (fst w) then fast_pow (fast_pow (snd w) (fst w) n) k n else fast_pow c (fst w) n) 1 &&
                    Z.eqb (Z.gcd (c - 1) n) 1) ws &&
  (fix distinct l := match l with [] => true | q :: l' => forallb (fun q' => negb (Z.eqb q q')) l' && distinct l' end) (map fst ws).
Lemma prod_divides l m : (forall q, In q l -> prime q /\ (q | m)) -> NoDup l -> (fold_right Z.mul 1 l | m).
Proof.
  intros H N. induction N as [|q l Hq N IH]; cbn [fold_right]; [apply Z.divide_1_l|].
  assert (R : rel_prime q (fold_right Z.mul 1 l)).
  { apply prime_rel_prime; [apply H; now left|]. intro D.
    assert (X : In q l); [|tauto]. clear IH N Hq.
    assert (Pq : prime q) by (apply H; now left). pose proof (prime_ge_2 _ Pq).
    assert (Hl : forall x, In x l -> prime x) by (intros x Hx; apply H; now right). clear H.
    induction l as [|x l IH]; cbn [fold_right] in D.
    - apply Z.divide_1_r in D. lia.
    - apply prime_mult in D; [|exact Pq]. destruct D as [D|D].
      + left. symmetry. apply prime_div_prime; auto. apply Hl; now left.
      + right. apply IH; [exact D|]. intros y Hy. apply Hl. now right. }
  assert (D1 : (q | m)) by (apply H; now left).
  assert (D2 : (fold_right Z.mul 1 l | m)) by (apply IH; intros y Hy; apply H; now right).
  destruct D2 as [k D2]. rewrite D2 in D1. rewrite Z.mul_comm in D1. apply Gauss in D1; [|exact R].
  destruct D1 as [j D1]. exists j. lia.
Qed.
Theorem pocklington n ws : (forall w, In w ws -> prime (fst w)) -> pock n ws = true -> prime n.
Proof.
  intros Pws C. unfold pock in C. rewrite !andb_true_iff, !Z.ltb_lt, forallb_forall in C. destruct C as [[[H1 H2] C] N].
  assert (Nd : NoDup (map fst ws)).
  { clear -N. induction (map fst ws) as [|q l IH]; constructor.
    - apply andb_true_iff in N. destruct N as [N _]. rewrite forallb_forall in N. intro I.
      specialize (N q I). now rewrite Z.eqb_refl in N.
    - apply IH. now apply andb_true_iff in N. }
  destruct (prime_dec n) as [P|P]; [exact P|]. exfalso.
  destruct (small_prime_divisor n H1 P) as (r & Pr & D & Q). pose proof (prime_ge_2 _ Pr) as R2.
  set (F := fold_right Z.mul 1 (map fst ws)) in *.
  assert (DF : (F | r - 1)).
  { apply prod_divides; [|exact Nd]. intros q Hq. apply in_map_iff in Hq. destruct Hq as (w & <- & Hw).
    split; [now apply Pws|]. specialize (C w Hw). cbv zeta in C. rewrite !andb_true_iff, !Z.eqb_eq in C. destruct C as (C1 & C2 & C3).
    pose proof (Pws w Hw) as Pq. pose proof (prime_ge_2 _ Pq). destruct w as [q a]. cbn [fst snd] in *.
    apply Z.mod_divide in C1; [|lia]. destruct C1 as [k Ek].
    assert (Ed : (n - 1) / q = k) by (rewrite Ek; apply Z.div_mul; lia).
    assert (K : 0 < k) by nia.
    rewrite Ed in C2, C3. rewrite fast_pow_ok in C3 by lia.
    assert (C2' : a ^ (n - 1) mod n = 1).
    { rewrite Ek. destruct (2 * k <? q); rewrite !fast_pow_ok in C2 by lia.
      - rewrite (pow_mod_eq (a ^ q mod n) (a ^ q) n k ltac:(lia) (Z.mod_mod (a ^ q) n ltac:(lia))), <- Z.pow_mul_r, (Z.mul_comm q k) in C2 by lia. exact C2.
      - rewrite (pow_mod_eq (a ^ k mod n) (a ^ k) n q ltac:(lia) (Z.mod_mod (a ^ k) n ltac:(lia))), <- Z.pow_mul_r in C2 by lia. exact C2. }
    clear C2. rename C2' into C2.
    assert (RR : forall x, (x mod n) mod r = x mod r).
    { intro x. symmetry. apply Zmod_div_mod; [lia|lia|exact D]. }
    assert (A1 : a ^ (n - 1) mod r = 1).
    { rewrite <- RR, C2. apply Z.mod_small. lia. }
    assert (Na : ~ (r | a ^ k)).
    { intro X. assert (Y : (r | a ^ (n - 1))).
      { rewrite Ek. rewrite Z.pow_mul_r by lia. destruct X as [j X]. rewrite X.
        replace q with (Z.succ (q - 1)) by lia. rewrite Z.pow_succ_r by lia. exists (j * (j * r) ^ (q - 1)). ring. }
      apply Z.mod_divide in Y; [|lia]. lia. }
    apply (order_divides r q (a ^ k) Pr Pq Na).
    - rewrite <- Z.pow_mul_r by lia. rewrite <- Ek. exact A1.
    - intro X. assert (Y : (r | 1)).
      { rewrite <- C3. apply Z.gcd_greatest; [|exact D].
        apply Z.mod_divide; [lia|]. rewrite Zminus_mod, RR, X. rewrite (Z.mod_small 1) by lia. reflexivity. }
      apply Z.divide_1_r in Y. lia. }
  apply Z.divide_pos_le in DF; [|lia]. 
  assert (0 <= F).
  { unfold F. clear -Pws. induction ws as [|w ws IH]; cbn [map fold_right]; [lia|].
    assert (0 <= fold_right Z.mul 1 (map fst ws)) by (apply IH; intros; apply Pws; now right).
    pose proof (prime_ge_2 _ (Pws w (or_introl eq_refl))). nia. }
  nia.
Qed.

(** ** Certificates *)
Lemma prime_103 : prime 103. Proof. apply (trial_sound _ 11). vm_compute. reflexivity. Qed.
Lemma prime_127 : prime 127. Proof. apply (trial_sound _ 12). vm_compute. reflexivity. Qed.
Lemma prime_991 : prime 991. Proof. apply (trial_sound _ 32). vm_compute. reflexivity. Qed.
Lemma prime_2551 : prime 2551. Proof. apply (trial_sound _ 51). vm_compute. reflexivity. Qed.
Lemma prime_353 : prime 353. Proof. apply (trial_sound _ 20). vm_compute. reflexivity. Qed.
Lemma prime_531581 : prime 531581. Proof. apply (trial_sound _ 730). vm_compute. reflexivity. Qed.
Lemma prime_569003 : prime 569003. Proof. apply (trial_sound _ 755). vm_compute. reflexivity. Qed.
Lemma prime_8574133 : prime 8574133.
Proof.
  apply (pocklington _ [(991, 2); (103, 2)]); [|vm_compute; reflexivity].
  cbn [In]. intros w H. repeat (destruct H as [<-|H]; [cbn [fst]; first [exact prime_991 | exact prime_103]|]). contradiction.
Qed.
Lemma prime_1919519569386763 : prime 1919519569386763.
Proof.
  apply (pocklington _ [(8574133, 2); (127, 2)]); [|vm_compute; reflexivity].
  cbn [In]. intros w H. repeat (destruct H as [<-|H]; [cbn [fst]; first [exact prime_8574133 | exact prime_127]|]). contradiction.
Qed.
Lemma prime_2773320623 : prime 2773320623.
Proof.
  apply (pocklington _ [(569003, 2)]); [|vm_compute; reflexivity].
  cbn [In]. intros w H. repeat (destruct H as [<-|H]; [cbn [fst]; first [exact prime_569003]|]). contradiction.
Qed.
Lemma prime_72106336199 : prime 72106336199.
Proof.
  apply (pocklington _ [(2773320623, 2)]); [|vm_compute; reflexivity].
  cbn [In]. intros w H. repeat (destruct H as [<-|H]; [cbn [fst]; first [exact prime_2773320623]|]). contradiction.
Qed.
Lemma prime_75445702479781427272750846543864801 : prime 75445702479781427272750846543864801.
Proof.
  apply (pocklington _ [(1919519569386763, 2); (72106336199, 2)]); [|vm_compute; reflexivity].
  cbn [In]. intros w H. repeat (destruct H as [<-|H]; [cbn [fst]; first [exact prime_1919519569386763 | exact prime_72106336199]|]). contradiction.
Qed.
Lemma prime_74058212732561358302231226437062788676166966415465897661863160754340907 : prime 74058212732561358302231226437062788676166966415465897661863160754340907.
Proof.
  apply (pocklington _ [(75445702479781427272750846543864801, 2); (353, 2)]); [|vm_compute; reflexivity].
  cbn [In]. intros w H. repeat (destruct H as [<-|H]; [cbn [fst]; first [exact prime_75445702479781427272750846543864801 | exact prime_353]|]). contradiction.
Qed.
Lemma prime_57896044618658097711785492504343953926634992332820282019728792003956564819949 : prime 57896044618658097711785492504343953926634992332820282019728792003956564819949.
Proof.
  apply (pocklington _ [(74058212732561358302231226437062788676166966415465897661863160754340907, 2)]); [|vm_compute; reflexivity].
  cbn [In]. intros w H. repeat (destruct H as [<-|H]; [cbn [fst]; first [exact prime_74058212732561358302231226437062788676166966415465897661863160754340907]|]). contradiction.
Qed.
Lemma prime_1224481 : prime 1224481.
Proof.
  apply (pocklington _ [(2551, 2)]); [|vm_compute; reflexivity].
  cbn [In]. intros w H. repeat (destruct H as [<-|H]; [cbn [fst]; first [exact prime_2551]|]). contradiction.
Qed.
Lemma prime_1257559732178653 : prime 1257559732178653.
Proof.
  apply (pocklington _ [(1224481, 2); (531581, 2)]); [|vm_compute; reflexivity].
  cbn [In]. intros w H. repeat (destruct H as [<-|H]; [cbn [fst]; first [exact prime_1224481 | exact prime_531581]|]). contradiction.
Qed.
Lemma prime_4434155615661930479 : prime 4434155615661930479.
Proof.
  apply (pocklington _ [(1257559732178653, 2)]); [|vm_compute; reflexivity].
  cbn [In]. intros w H. repeat (destruct H as [<-|H]; [cbn [fst]; first [exact prime_1257559732178653]|]). contradiction.
Qed.
Lemma prime_172054593956031949258510691 : prime 172054593956031949258510691.
Proof.
  apply (pocklington _ [(4434155615661930479, 2)]); [|vm_compute; reflexivity].
  cbn [In]. intros w H. repeat (destruct H as [<-|H]; [cbn [fst]; first [exact prime_4434155615661930479]|]). contradiction.
Qed.
Lemma prime_19757330305831588566944191468367130476339 : prime 19757330305831588566944191468367130476339.
Proof.
  apply (pocklington _ [(172054593956031949258510691, 2)]); [|vm_compute; reflexivity].
  cbn [In]. intros w H. repeat (destruct H as [<-|H]; [cbn [fst]; first [exact prime_172054593956031949258510691]|]). contradiction.
Qed.
Lemma prime_276602624281642239937218680557139826668747 : prime 276602624281642239937218680557139826668747.
Proof.
  apply (pocklington _ [(19757330305831588566944191468367130476339, 2)]); [|vm_compute; reflexivity].
  cbn [In]. intros w H. repeat (destruct H as [<-|H]; [cbn [fst]; first [exact prime_19757330305831588566944191468367130476339]|]). contradiction.
Qed.
Lemma prime_7237005577332262213973186563042994240857116359379907606001950938285454250989 : prime 7237005577332262213973186563042994240857116359379907606001950938285454250989.
Proof.
  apply (pocklington _ [(276602624281642239937218680557139826668747, 2)]); [|vm_compute; reflexivity].
  cbn [In]. intros w H. repeat (destruct H as [<-|H]; [cbn [fst]; first [exact prime_276602624281642239937218680557139826668747]|]). contradiction.
Qed.
