(** Model of package [utils] (utils/utils.go, utils/coname.go). *)
From Coq Require Import List NArith Lia Bool Arith.
From Verif Require Import Base.
Import ListNotations.

(** utils/utils.go:14-20 [GetNthBit]: [bs[offset/8] & (1 << (7 - offset%8)) != 0].
    Panics when the byte offset is out of range.  [offset] is a Go uint32,
    here an unbounded [nat]. *)
Definition GetNthBit (bs : bytes) (offset : nat) : result bool :=
  do b <- index bs (offset / 8);
  Ok (negb (N.eqb (N.land (Byte.to_N b) (N.shiftl 1 (N.of_nat (7 - offset mod 8)))) 0)).

(** Little-endian encoding of [n] on [k] bytes: encoding/binary's
    [LittleEndian.PutUint32]/[PutUint64]. *)
(** used by utils/utils.go:24-42 *)
Fixpoint le_bytes (k : nat) (n : N) : bytes :=
  match k with
  | O => []
  | S k' => b8 n :: le_bytes k' (n / 256)
  end.

(** utils/utils.go:32-34 [ULongToBytes] (via [LongToBytes] 24-28; the int64
    round trip is the identity on 64-bit words). *)
Definition ULongToBytes (n : N) : bytes := le_bytes 8 n.

(** utils/utils.go:38-42 [UInt32ToBytes]. *)
Definition UInt32ToBytes (n : N) : bytes := le_bytes 4 n.

(** utils/coname.go:45: [(bs[i/8] << (i%8)) & (1<<7) > 0] on one byte.  The
    shift is an 8-bit shift (mod 256). *)
Definition bit_at (b : byte) (j : nat) : bool :=
  N.ltb 0 (N.land (N.shiftl (Byte.to_N b) (N.of_nat j) mod 256) 128).

(** utils/coname.go:42-48 [ToBits]: the loop over [i < len(bs)*8]. *)
Definition ToBits (bs : bytes) : list bool :=
  map (fun i => bit_at (nth (i / 8) bs x00) (i mod 8)) (seq 0 (length bs * 8)).

(** utils/coname.go:33: [bs[i/8] |= (1 << 7) >> (i%8)]. *)
Definition or_bit (bs : bytes) (i : nat) : bytes :=
  set_nth (i / 8)
    (b8 (N.lor (Byte.to_N (nth (i / 8) bs x00)) (N.shiftr 128 (N.of_nat (i mod 8)))))
    bs.

(** utils/coname.go:29-37 [ToBytes]: zero buffer, then one pass over the bits. *)
Definition ToBytes (bits : list bool) : bytes :=
  fold_left (fun bs i => if nth i bits false then or_bit bs i else bs)
            (seq 0 (length bits))
            (repeat x00 ((length bits + 7) / 8)).

(** utils/utils.go:45-55 [WriteFile].  A file system is a partial map from
    paths to contents; [disk_ok = false] models a failing write, which leaves
    an unspecified prefix of the data behind.  Permissions are not modelled. *)
Definition fs := bytes -> option bytes.
(** utils/utils.go:45-55, as a function on a file system (step by step in Storage.v) *)
Definition WriteFile (disk_ok : bool) (written : nat) (f : fs) (name buf : bytes)
  : fs * bool (* true = nil error *) :=
  match f name with
  | Some _ => (f, false)
  | None =>
      ((fun p => if beq p name
                 then Some (if disk_ok then buf else firstn written buf)
                 else f p), disk_ok)
  end.

(** ** Facts *)

(** utils/coname.go:42-48, one byte *)
Definition byte_bits (b : byte) : list bool := map (bit_at b) (seq 0 8).

Lemma seq_add_map a n k : seq (a + n) k = map (fun i => n + i) (seq a k).
Proof.
  revert a; induction k; simpl; intros; auto. f_equal; [lia|].
  rewrite <- (IHk (S a)). reflexivity.
Qed.

Lemma div8_S i : (8 + i) / 8 = S (i / 8).
Proof. replace (8 + i) with (i + 1 * 8) by lia. rewrite Nat.div_add by lia. lia. Qed.
Lemma mod8_S i : (8 + i) mod 8 = i mod 8.
Proof. replace (8 + i) with (i + 1 * 8) by lia. rewrite Nat.mod_add by lia. reflexivity. Qed.

Lemma ToBits_cons b bs : ToBits (b :: bs) = byte_bits b ++ ToBits bs.
Proof.
  unfold ToBits, byte_bits. simpl length.
  replace (S (length bs) * 8) with (8 + length bs * 8) by lia.
  rewrite seq_app, map_app. f_equal.
  change (0 + 8) with (0 + 8). rewrite (seq_add_map 0 8). rewrite map_map.
  apply map_ext. intro i. rewrite div8_S, mod8_S. reflexivity.
Qed.

Lemma ToBits_nil : ToBits [] = [].
Proof. reflexivity. Qed.

Lemma byte_bits_length b : length (byte_bits b) = 8.
Proof. reflexivity. Qed.

Lemma ToBits_length bs : length (ToBits bs) = 8 * length bs.
Proof. unfold ToBits. rewrite map_length, seq_length. lia. Qed.

Lemma byte_bits_inj a b : byte_bits a = byte_bits b -> a = b.
Proof.
  intro H.
  assert (D : forall b, b = b8 (fold_left (fun acc (x : bool) => (2 * acc + (if x then 1 else 0))%N)
                                   (byte_bits b) 0%N)) by (intro c; destruct c; reflexivity).
  rewrite (D a), (D b), H. reflexivity.
Qed.

Lemma ToBits_inj a b : ToBits a = ToBits b -> a = b.
Proof.
  revert b; induction a as [|x a IH]; destruct b as [|y b]; auto.
  - rewrite ToBits_cons. intro H. apply (f_equal (@length _)) in H.
    rewrite app_length, byte_bits_length in H. simpl in H. lia.
  - rewrite ToBits_cons. intro H. apply (f_equal (@length _)) in H.
    rewrite app_length, byte_bits_length in H. simpl in H. lia.
  - rewrite !ToBits_cons. intro H.
    apply app_inj_len in H; [|reflexivity]. destruct H as [H1 H2].
    apply byte_bits_inj in H1. apply IH in H2. congruence.
Qed.

Lemma ToBits_app a b : ToBits (a ++ b) = ToBits a ++ ToBits b.
Proof.
  induction a as [|x a IH]; auto. change ((x :: a) ++ b) with (x :: (a ++ b)).
  rewrite !ToBits_cons, IH, app_assoc. reflexivity.
Qed.

Lemma GetNthBit_ToBits bs i : GetNthBit bs i = index (ToBits bs) i.
Proof.
  revert i; induction bs as [|b bs IH]; intro i.
  - unfold GetNthBit, index. rewrite ToBits_nil.
    destruct (i / 8); destruct i; reflexivity.
  - rewrite ToBits_cons. destruct (Nat.lt_ge_cases i 8) as [L|L].
    + assert (i / 8 = 0) by (apply Nat.div_small; lia).
      assert (i mod 8 = i) by (apply Nat.mod_small; lia).
      unfold GetNthBit. rewrite H, H0. cbn [index nth_error bind].
      unfold index. rewrite nth_error_app1 by (rewrite byte_bits_length; lia).
      assert (C : i = 0 \/ i = 1 \/ i = 2 \/ i = 3 \/ i = 4 \/ i = 5 \/ i = 6 \/ i = 7) by lia.
      repeat destruct C as [-> | C]; try subst i; destruct b; reflexivity.
    + replace i with (8 + (i - 8)) by lia. generalize (i - 8) as j; intro j.
      unfold index. rewrite nth_error_app2 by (rewrite byte_bits_length; lia).
      rewrite byte_bits_length. replace (8 + j - 8) with j by lia.
      fold (index (ToBits bs) j). rewrite <- IH.
      unfold GetNthBit. rewrite div8_S, mod8_S. reflexivity.
Qed.

Lemma or_bit_byte_bits b j : j < 8 ->
  byte_bits (b8 (N.lor (Byte.to_N b) (N.shiftr 128 (N.of_nat j)))) = set_nth j true (byte_bits b).
Proof.
  intro L.
  assert (C : j = 0 \/ j = 1 \/ j = 2 \/ j = 3 \/ j = 4 \/ j = 5 \/ j = 6 \/ j = 7) by lia.
  repeat destruct C as [-> | C]; try subst j; destruct b; vm_compute; reflexivity.
Qed.

Lemma ToBits_or_bit bs i : i < 8 * length bs ->
  ToBits (or_bit bs i) = set_nth i true (ToBits bs).
Proof.
  revert i; induction bs as [|b bs IH]; simpl length; intros i L; [lia|].
  destruct (Nat.lt_ge_cases i 8) as [L8|L8].
  - unfold or_bit. rewrite (Nat.div_small i 8), (Nat.mod_small i 8) by lia.
    cbn [set_nth nth]. rewrite !ToBits_cons, or_bit_byte_bits by lia.
    rewrite set_nth_app_l by (rewrite byte_bits_length; lia). reflexivity.
  - replace i with (8 + (i - 8)) by lia. remember (i - 8) as j.
    unfold or_bit. rewrite div8_S, mod8_S. cbn [set_nth nth].
    rewrite !ToBits_cons. fold (or_bit bs j). rewrite IH by lia.
    change (8 + j) with (length (byte_bits b) + j). rewrite set_nth_app_r. reflexivity.
Qed.

Lemma or_bit_length bs i : length (or_bit bs i) = length bs.
Proof. unfold or_bit. apply set_nth_length. Qed.

Lemma ToBits_zeros n : ToBits (repeat x00 n) = repeat false (8 * n).
Proof.
  induction n; auto. change (repeat x00 (S n)) with (x00 :: repeat x00 n).
  rewrite ToBits_cons, IHn. replace (8 * S n) with (8 + 8 * n) by lia.
  rewrite (repeat_app _ 8). reflexivity.
Qed.

Lemma set_nth_mid {A} (l : list A) x y l' :
  set_nth (length l) x (l ++ y :: l') = l ++ x :: l'.
Proof. induction l; simpl; congruence. Qed.

(** no line of its own in /repo: proof helper for utils/coname.go:29-37 *)
Definition pad8 (n : nat) : nat := 8 * ((n + 7) / 8) - n.

Lemma pad8_bound n : n <= 8 * ((n + 7) / 8) < n + 8.
Proof.
  pose proof (Nat.div_mod (n + 7) 8 ltac:(lia)).
  pose proof (Nat.mod_upper_bound (n + 7) 8 ltac:(lia)). lia.
Qed.

Lemma firstn_S_nth (bits : list bool) k : k < length bits ->
  firstn (S k) bits = firstn k bits ++ [nth k bits false].
Proof.
  revert k; induction bits; simpl; intros k L; [lia|]. destruct k; simpl; auto.
  f_equal. apply IHbits. lia.
Qed.

Lemma ToBytes_loop bits k : k <= length bits ->
  let bs := fold_left (fun bs i => if nth i bits false then or_bit bs i else bs)
              (seq 0 k) (repeat x00 ((length bits + 7) / 8)) in
  length bs = (length bits + 7) / 8 /\
  ToBits bs = firstn k bits ++ repeat false (8 * ((length bits + 7) / 8) - k).
Proof.
  pose proof (pad8_bound (length bits)) as P.
  induction k; intros L bs.
  - subst bs. cbn [seq fold_left firstn app]. rewrite repeat_length, ToBits_zeros.
    split; auto. f_equal. lia.
  - subst bs. rewrite seq_S, fold_left_app. cbn [fold_left Nat.add].
    destruct (IHk ltac:(lia)) as [IL IB]. cbv zeta in IL, IB.
    set (bs0 := fold_left _ (seq 0 k) _) in *.
    rewrite firstn_S_nth by lia.
    replace (8 * ((length bits + 7) / 8) - k) with (S (8 * ((length bits + 7) / 8) - S k)) in IB by lia.
    cbn [repeat] in IB.
    destruct (nth k bits false).
    + rewrite or_bit_length. split; auto. rewrite ToBits_or_bit by lia. rewrite IB.
      assert (LF : length (firstn k bits) = k) by (rewrite firstn_length; lia).
      rewrite <- LF at 1. rewrite set_nth_mid. rewrite <- app_assoc. reflexivity.
    + split; auto. rewrite IB, <- app_assoc. reflexivity.
Qed.

Lemma ToBytes_length bits : length (ToBytes bits) = (length bits + 7) / 8.
Proof. apply (ToBytes_loop bits (length bits)). lia. Qed.

Lemma ToBits_ToBytes bits :
  ToBits (ToBytes bits) = bits ++ repeat false (pad8 (length bits)).
Proof.
  destruct (ToBytes_loop bits (length bits) ltac:(lia)) as [_ H].
  rewrite firstn_all in H. exact H.
Qed.

Lemma ToBytes_ToBits bs : ToBytes (ToBits bs) = bs.
Proof.
  apply ToBits_inj. rewrite ToBits_ToBytes, ToBits_length.
  replace (pad8 (8 * length bs)) with 0. { simpl. apply app_nil_r. }
  unfold pad8. replace (8 * length bs + 7) with (7 + length bs * 8) by lia.
  rewrite Nat.div_add by lia. simpl (7 / 8). lia.
Qed.

Lemma ToBytes_inj a b : length a = length b -> ToBytes a = ToBytes b -> a = b.
Proof.
  intros L H. apply (f_equal ToBits) in H. rewrite !ToBits_ToBytes in H.
  apply app_inj_len in H; tauto.
Qed.

Lemma le_bytes_length k n : length (le_bytes k n) = k.
Proof. revert n; induction k; simpl; auto. Qed.

Lemma le_bytes_inj k a b :
  (a < 256 ^ N.of_nat k)%N -> (b < 256 ^ N.of_nat k)%N -> le_bytes k a = le_bytes k b -> a = b.
Proof.
  revert a b; induction k; intros a b La Lb H.
  - simpl in *. lia.
  - cbn [le_bytes] in H. injection H as H1 H2.
    apply (f_equal Byte.to_N) in H1. rewrite !to_N_b8 in H1.
    replace (N.of_nat (S k)) with (N.succ (N.of_nat k)) in La, Lb by lia.
    rewrite N.pow_succ_r' in La, Lb.
    apply IHk in H2.
    + rewrite (N.div_mod a 256), (N.div_mod b 256) by lia. congruence.
    + apply N.div_lt_upper_bound; lia.
    + apply N.div_lt_upper_bound; lia.
Qed.

Lemma ULongToBytes_length n : length (ULongToBytes n) = 8.
Proof. apply le_bytes_length. Qed.
Lemma UInt32ToBytes_length n : length (UInt32ToBytes n) = 4.
Proof. apply le_bytes_length. Qed.

Lemma ULongToBytes_inj a b :
  (a < 2 ^ 64)%N -> (b < 2 ^ 64)%N -> ULongToBytes a = ULongToBytes b -> a = b.
Proof. intros. apply (le_bytes_inj 8); auto. Qed.
Lemma UInt32ToBytes_inj a b :
  (a < 2 ^ 32)%N -> (b < 2 ^ 32)%N -> UInt32ToBytes a = UInt32ToBytes b -> a = b.
Proof. intros. apply (le_bytes_inj 4); auto. Qed.

Lemma ToBits_nth bs : forall k i b, i < 8 -> nth_error bs k = Some b ->
  nth_error (ToBits bs) (8 * k + i) = Some (N.testbit (Byte.to_N b) (N.of_nat (7 - i))).
Proof.
  induction bs as [|c bs IH]; intros k i b L H; destruct k as [|k]; try discriminate.
  - injection H as ->. rewrite ToBits_cons, nth_error_app1 by (rewrite byte_bits_length; lia).
    assert (Ci : i = 0 \/ i = 1 \/ i = 2 \/ i = 3 \/ i = 4 \/ i = 5 \/ i = 6 \/ i = 7) by lia.
    repeat destruct Ci as [-> | Ci]; try subst i; destruct b; reflexivity.
  - rewrite ToBits_cons, nth_error_app2 by (rewrite byte_bits_length; lia).
    rewrite byte_bits_length. replace (8 * S k + i - 8) with (8 * k + i) by lia. apply IH; auto.
Qed.

Lemma le_bytes_nth k : forall n i, i < k -> nth_error (le_bytes k n) i = Some (b8 (n / 256 ^ N.of_nat i)).
Proof.
  induction k; intros n i L; [lia|]. destruct i as [|i]; cbn [le_bytes nth_error].
  - rewrite N.pow_0_r, N.div_1_r. reflexivity.
  - rewrite IHk by lia. rewrite N.div_div by (try apply N.pow_nonzero; lia). do 3 f_equal.
    rewrite Nat2N.inj_succ, N.pow_succ_r'. reflexivity.
Qed.
