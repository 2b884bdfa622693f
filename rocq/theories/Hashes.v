(** The hash functions the code calls, written out: SHAKE128 and SHAKE256 (FIPS
    202), used by crypto/util.go and crypto/vrf/vrf.go through
    golang.org/x/crypto/sha3, and SHA-512 (FIPS 180-4), used by
    golang.org/x/crypto/ed25519.  Both packages are outside the repository; what is
    written here follows the standards, and the examples at the end of Prop_Real.v
    compare it with published values.  A 64-bit word is a number below 2^64. *)
From Coq Require Import List NArith Arith.
From Verif Require Import Base Utils.
Import ListNotations.
Local Open Scope N_scope.

(** ** Words *)
(** crypto/util.go:17-28, the words of the sponge (FIPS 202); no line of its own in /repo *)
Definition ones64 : N := N.ones 64.
(** crypto/util.go:17-28 (FIPS 202, ROT); no line of its own in /repo *)
Definition rotl64 (n w : N) : N :=
  N.lor (N.land (N.shiftl w n) ones64) (N.shiftr w (64 - n)).
(** crypto/util.go:17-28 (FIPS 202, bit complement); no line of its own in /repo *)
Definition not64 (w : N) : N := N.lxor w ones64.
(** crypto/util.go:17-28: eight bytes, least significant first *)
Fixpoint le_word (bs : bytes) : N :=
  match bs with [] => 0 | b :: r => N.lor (Byte.to_N b) (N.shiftl (le_word r) 8) end.
(** no line of its own in /repo: cut a string into pieces of [k] bytes *)
Fixpoint chunks (fuel k : nat) (bs : bytes) : list bytes :=
  match fuel with
  | O => []
  | S f => match bs with [] => [] | _ => firstn k bs :: chunks f k (skipn k bs) end
  end.
(** no line of its own in /repo *)
Definition pieces (k : nat) (bs : bytes) : list bytes := chunks (length bs) k bs.

(** ** Keccak *)
(** crypto/util.go:17-28: the 24 round constants (FIPS 202, 3.2.5) *)
Definition keccak_rc : list N :=
  [0x0000000000000001; 0x0000000000008082; 0x800000000000808A; 0x8000000080008000;
   0x000000000000808B; 0x0000000080000001; 0x8000000080008081; 0x8000000000008009;
   0x000000000000008A; 0x0000000000000088; 0x0000000080008009; 0x000000008000000A;
   0x000000008000808B; 0x800000000000008B; 0x8000000000008089; 0x8000000000008003;
   0x8000000000008002; 0x8000000000000080; 0x000000000000800A; 0x800000008000000A;
   0x8000000080008081; 0x8000000000008080; 0x0000000080000001; 0x8000000080008008].
(** crypto/util.go:17-28: the rotation of lane (x, y), at index x + 5 y (FIPS 202, 3.2.2) *)
Definition keccak_rot : list N :=
  [0; 1; 62; 28; 27;  36; 44; 6; 55; 20;  3; 10; 43; 25; 39;  41; 45; 15; 21; 8;  18; 2; 61; 56; 14].
(** crypto/util.go:17-28: lane (x, y) of a state (FIPS 202, 3.1) *)
Definition lane (s : list N) (x y : nat) : N := nth (x mod 5 + 5 * (y mod 5))%nat s 0.
(** crypto/util.go:17-28: a state from its lanes *)
Definition state (f : nat -> nat -> N) : list N :=
  flat_map (fun y => map (fun x => f x y) (seq 0 5)) (seq 0 5).
(** crypto/util.go:17-28, theta (FIPS 202, 3.2.1) *)
Definition theta (s : list N) : list N :=
  let c := map (fun x => N.lxor (lane s x 0) (N.lxor (lane s x 1) (N.lxor (lane s x 2) (N.lxor (lane s x 3) (lane s x 4))))) (seq 0 5) in
  let d := map (fun x => N.lxor (nth ((x + 4) mod 5)%nat c 0) (rotl64 1 (nth ((x + 1) mod 5)%nat c 0))) (seq 0 5) in
  state (fun x y => N.lxor (lane s x y) (nth x d 0)).
(** crypto/util.go:17-28, rho and pi (FIPS 202, 3.2.2, 3.2.3): lane (x, y) comes from lane (x + 3 y, x) *)
Definition rho_pi (s : list N) : list N :=
  let r := map (fun '(n, w) => rotl64 n w) (combine keccak_rot s) in
  state (fun x y => lane r (x + 3 * y) x).
(** crypto/util.go:17-28, chi (FIPS 202, 3.2.4) *)
Definition chi (s : list N) : list N :=
  state (fun x y => N.lxor (lane s x y) (N.land (not64 (lane s (x + 1) y)) (lane s (x + 2) y))).
(** crypto/util.go:17-28, iota (FIPS 202, 3.2.5) *)
Definition iota (rc : N) (s : list N) : list N :=
  match s with [] => [] | a :: r => N.lxor a rc :: r end.
(** crypto/util.go:17-28, Keccak-f[1600] (FIPS 202, 3.3) *)
Definition keccak_f (s : list N) : list N :=
  fold_left (fun s rc => iota rc (chi (rho_pi (theta s)))) keccak_rc s.
(** crypto/util.go:17-28: xor a block into the front of the state *)
Fixpoint xor_words (s ws : list N) : list N :=
  match s, ws with
  | a :: s, w :: ws => N.lxor a w :: xor_words s ws
  | s, _ => s
  end.
(** crypto/util.go:17-28: the padding 1111 10*1 of SHAKE (FIPS 202, 5.1, 6.2) for [rate] bytes per block *)
Definition shake_pad (rate : nat) (m : bytes) : bytes :=
  let k := (rate - length m mod rate)%nat in
  m ++ (if Nat.eqb k 1 then [x9f] else x1f :: repeat x00 (k - 2) ++ [x80]).
(** crypto/util.go:17-28: absorbing (FIPS 202, 4) *)
Definition absorb (rate : nat) (m : bytes) : list N :=
  fold_left (fun s blk => keccak_f (xor_words s (map le_word (pieces 8 blk))))
    (pieces rate (shake_pad rate m)) (repeat 0 25).
(** crypto/util.go:17-28: squeezing [blocks] blocks and at most [n] bytes (FIPS 202, 4) *)
Fixpoint squeeze (rate blocks n : nat) (s : list N) : bytes :=
  let out := firstn rate (flat_map (le_bytes 8) s) in
  match blocks with
  | O => firstn n out
  | S k => if Nat.leb n rate then firstn n out else out ++ squeeze rate k (n - rate) (keccak_f s)
  end.
(** crypto/util.go:17-28 (FIPS 202, 6.3) *)
Definition shake_xof (rate : nat) (m : bytes) (n : nat) : bytes :=
  squeeze rate (n / rate) n (absorb rate m).
(** crypto/util.go:17-28: [sha3.NewShake128] and 32 bytes of output *)
Definition shake128 (m : bytes) : bytes := shake_xof 168 m 32.
(** crypto/vrf/vrf.go:47-52: [sha3.ShakeSum256], [sha3.NewShake256] *)
Definition shake256 (m : bytes) (n : nat) : bytes := shake_xof 136 m n.

(** ** SHA-512 *)
(** crypto/sign/sign.go:46-49 (FIPS 180-4, 4.2.3); no line of its own in /repo *)
Definition sha512_k : list N :=
  [0x428a2f98d728ae22; 0x7137449123ef65cd; 0xb5c0fbcfec4d3b2f; 0xe9b5dba58189dbbc;
   0x3956c25bf348b538; 0x59f111f1b605d019; 0x923f82a4af194f9b; 0xab1c5ed5da6d8118;
   0xd807aa98a3030242; 0x12835b0145706fbe; 0x243185be4ee4b28c; 0x550c7dc3d5ffb4e2;
   0x72be5d74f27b896f; 0x80deb1fe3b1696b1; 0x9bdc06a725c71235; 0xc19bf174cf692694;
   0xe49b69c19ef14ad2; 0xefbe4786384f25e3; 0x0fc19dc68b8cd5b5; 0x240ca1cc77ac9c65;
   0x2de92c6f592b0275; 0x4a7484aa6ea6e483; 0x5cb0a9dcbd41fbd4; 0x76f988da831153b5;
   0x983e5152ee66dfab; 0xa831c66d2db43210; 0xb00327c898fb213f; 0xbf597fc7beef0ee4;
   0xc6e00bf33da88fc2; 0xd5a79147930aa725; 0x06ca6351e003826f; 0x142929670a0e6e70;
   0x27b70a8546d22ffc; 0x2e1b21385c26c926; 0x4d2c6dfc5ac42aed; 0x53380d139d95b3df;
   0x650a73548baf63de; 0x766a0abb3c77b2a8; 0x81c2c92e47edaee6; 0x92722c851482353b;
   0xa2bfe8a14cf10364; 0xa81a664bbc423001; 0xc24b8b70d0f89791; 0xc76c51a30654be30;
   0xd192e819d6ef5218; 0xd69906245565a910; 0xf40e35855771202a; 0x106aa07032bbd1b8;
   0x19a4c116b8d2d0c8; 0x1e376c085141ab53; 0x2748774cdf8eeb99; 0x34b0bcb5e19b48a8;
   0x391c0cb3c5c95a63; 0x4ed8aa4ae3418acb; 0x5b9cca4f7763e373; 0x682e6ff3d6b2b8a3;
   0x748f82ee5defb2fc; 0x78a5636f43172f60; 0x84c87814a1f0ab72; 0x8cc702081a6439ec;
   0x90befffa23631e28; 0xa4506cebde82bde9; 0xbef9a3f7b2c67915; 0xc67178f2e372532b;
   0xca273eceea26619c; 0xd186b8c721c0c207; 0xeada7dd6cde0eb1e; 0xf57d4f7fee6ed178;
   0x06f067aa72176fba; 0x0a637dc5a2c898a6; 0x113f9804bef90dae; 0x1b710b35131c471b;
   0x28db77f523047d84; 0x32caab7b40c72493; 0x3c9ebe0a15c9bebc; 0x431d67c49c100d4c;
   0x4cc5d4becb3e42b6; 0x597f299cfc657e2a; 0x5fcb6fab3ad6faec; 0x6c44198c4a475817].
(** crypto/sign/sign.go:46-49 (FIPS 180-4, 5.3.5) *)
Definition sha512_iv : list N :=
  [0x6a09e667f3bcc908; 0xbb67ae8584caa73b; 0x3c6ef372fe94f82b; 0xa54ff53a5f1d36f1;
   0x510e527fade682d1; 0x9b05688c2b3e6c1f; 0x1f83d9abfb41bd6b; 0x5be0cd19137e2179].
(** crypto/sign/sign.go:46-49 (FIPS 180-4, 2.2.2, addition modulo 2^64) *)
Definition add_w (a b : N) : N := N.land (a + b) ones64.
(** crypto/sign/sign.go:46-49 (FIPS 180-4, ROTR) *)
Definition rotr64 (n w : N) : N := rotl64 (64 - n) w.
(** crypto/sign/sign.go:46-49 (FIPS 180-4, 4.1.3) *)
Definition Sigma0 (w : N) : N := N.lxor (rotr64 28 w) (N.lxor (rotr64 34 w) (rotr64 39 w)).
(** crypto/sign/sign.go:46-49 (FIPS 180-4, 4.1.3) *)
Definition Sigma1 (w : N) : N := N.lxor (rotr64 14 w) (N.lxor (rotr64 18 w) (rotr64 41 w)).
(** crypto/sign/sign.go:46-49 (FIPS 180-4, 4.1.3) *)
Definition sigma0 (w : N) : N := N.lxor (rotr64 1 w) (N.lxor (rotr64 8 w) (N.shiftr w 7)).
(** crypto/sign/sign.go:46-49 (FIPS 180-4, 4.1.3) *)
Definition sigma1 (w : N) : N := N.lxor (rotr64 19 w) (N.lxor (rotr64 61 w) (N.shiftr w 6)).
(** crypto/sign/sign.go:46-49 (FIPS 180-4, 4.1.3) *)
Definition Ch (e f g : N) : N := N.lxor (N.land e f) (N.land (not64 e) g).
(** crypto/sign/sign.go:46-49 (FIPS 180-4, 4.1.3) *)
Definition Maj (a b c : N) : N := N.lxor (N.land a b) (N.lxor (N.land a c) (N.land b c)).
(** crypto/sign/sign.go:46-49 (FIPS 180-4, 6.4.2 step 1): the next word of the schedule, from the last sixteen, oldest first *)
Definition sched_next (w : list N) : N :=
  add_w (add_w (sigma1 (nth 14 w 0)) (nth 9 w 0)) (add_w (sigma0 (nth 1 w 0)) (nth 0 w 0)).
(** crypto/sign/sign.go:46-49 (FIPS 180-4, 6.4.2 step 3) *)
Definition sha_round (h : list N) (k w : N) : list N :=
  match h with
  | [a; b; c; d; e; f; g; i] =>
      let t1 := add_w (add_w i (Sigma1 e)) (add_w (Ch e f g) (add_w k w)) in
      let t2 := add_w (Sigma0 a) (Maj a b c) in
      [add_w t1 t2; a; b; c; add_w d t1; e; f; g]
  | _ => h
  end.
(** crypto/sign/sign.go:46-49 (FIPS 180-4, 6.4.2): the rounds, [w] holding the next sixteen words of the schedule *)
Fixpoint sha_rounds (ks : list N) (w h : list N) : list N :=
  match ks with
  | [] => h
  | k :: ks => sha_rounds ks (tl w ++ [sched_next w]) (sha_round h k (hd 0 w))
  end.
(** crypto/sign/sign.go:46-49 (FIPS 180-4, 3.1): eight bytes, most significant first *)
Definition be_word (bs : bytes) : N := le_word (rev bs).
(** crypto/sign/sign.go:46-49 (FIPS 180-4, 6.4.2): one block *)
Definition sha_block (h : list N) (blk : bytes) : list N :=
  map (fun '(a, b) => add_w a b) (combine h (sha_rounds sha512_k (map be_word (pieces 8 blk)) h)).
(** crypto/sign/sign.go:46-49 (FIPS 180-4, 5.1.2) *)
Definition sha_pad (m : bytes) : bytes :=
  let z := ((128 - (length m + 17) mod 128) mod 128)%nat in
  m ++ x80 :: repeat x00 z ++ rev (le_bytes 16 (8 * N.of_nat (length m))).
(** crypto/sign/sign.go:46-49: SHA-512 (FIPS 180-4, 6.4) *)
Definition sha512 (m : bytes) : bytes :=
  flat_map (fun w => rev (le_bytes 8 w)) (fold_left sha_block (pieces 128 (sha_pad m)) sha512_iv).
