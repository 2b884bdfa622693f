(** C77: how the VRF's secrets are derived, and what happens if they repeat.

    [xof] stands for SHAKE256 (only its output length is assumed), [encode P] is the
    32-byte encoding of a point of the curve, [smul n P] is n times P, [pB] the base
    point, [le_value] reads bytes little-endian. *)
From Coq Require Import List NArith ZArith Lia Bool Arith Znumtheory.
From Verif Require Import Base Extra25519 GoInt Field EdConst Group Fp EdGroup EdOrder Scalar ScalarFacts.
From Verif Require Import GroupFacts EncFacts MulFacts BaseFacts SmulFacts PointFacts EdCyclic VRF VRFSpec VRFFacts Prop_VRF ElligatorFacts.
Import ListNotations.
Local Open Scope Z_scope.
Local Notation nlen := (@length Byte.byte).

(** The scalar of 32 bytes: the three low bits and the top bit cleared, bit 254 set *)
Definition clamped (b : bytes) : Z := 2 ^ 254 + 8 * ((le_value b / 8) mod 2 ^ 251).
(** The number a proof for [m] is hidden with, under the key made from [seed]: a
    hash of the second half of the expanded seed, the public key and the message *)
Definition hiding (xof : bytes -> nat -> bytes) (seed pk m : bytes) : Z :=
  le_value (xof (skipn 32 (xof seed 64%nat) ++ pk ++ m) 64%nat) mod L25519.
(** Two different inputs on which the first [n] bytes of the output, read as a number modulo L, agree *)
Definition xof_collision (xof : bytes -> nat -> bytes) (n : nat) (a b : bytes) : Prop :=
  a <> b /\ le_value (xof a n) mod L25519 = le_value (xof b n) mod L25519.

Section Nonce.
  Variable xof : bytes -> nat -> bytes.
  Hypothesis xof_len : forall m n, length (xof m n) = n.

  Lemma scalar_clamped seed : nlen seed = 32%nat -> scalar_of xof seed = clamped (firstn 32 (xof seed 64)).
  Proof.
    intro L. unfold scalar_of, expandSecret. cbv zeta. cbn [fst]. rewrite (firstn_all2 seed) by lia.
    apply clamp_value. rewrite firstn_length, xof_len. reflexivity.
  Qed.
  (** The key pair is a function of the seed alone: the private key is the seed and
      the public key, which is x B for the clamped first half x of the expanded seed. *)
  Theorem C77_key : forall seed sk, length seed = 32%nat -> GenerateKey xof (Some seed) = Some sk ->
    sk = seed ++ encode (smul (clamped (firstn 32 (xof seed 64))) pB).
  Proof. intros seed sk L G. rewrite (GenerateKey_ok xof xof_len seed L), (scalar_clamped seed L) in G. now injection G as <-. Qed.
  (** Every proof (s, t, I) an honest key makes satisfies I = x H(m), s P + t B = r B
      and t H(m) + s I = r H(m), where x is the clamped first half of the expanded
      seed and r the hash, modulo L, of its second half, the public key and the
      message; [Compute] hashes the same x H(m). *)
  Theorem C77_nonce : forall seed sk m, length seed = 32%nat -> GenerateKey xof (Some seed) = Some sk ->
    let x := clamped (firstn 32 (xof seed 64)) in let r := hiding xof seed (Public sk) m in
    exists H s t, H1 xof m H /\ length s = 32%nat /\ length t = 32%nat /\
      Compute xof sk m = Some (xof (encode (smul x H) ++ m) 32) /\
      Prove xof sk m = Some (xof (encode (smul x H) ++ m) 32, s ++ t ++ encode (smul x H)) /\
      Public sk = encode (smul x pB) /\
      padd (smul (le_value s) (smul x pB)) (smul (le_value t) pB) = smul r pB /\
      padd (smul (le_value t) H) (smul (le_value s) (smul x H)) = smul r H /\
      le_value s = H2 xof H (Public sk) (encode (smul x H)) (smul r pB) (smul r H) m /\
      le_value t = (r - x * le_value s) mod L25519.
  Proof.
    intros seed sk m L G. rewrite (GenerateKey_ok xof xof_len seed L) in G. injection G as <-.
    assert (EX : scalar_of xof seed = clamped (firstn 32 (xof seed 64))) by exact (scalar_clamped seed L).
    set (pk := encode (smul (scalar_of xof seed) pB)).
    assert (PK : Public (seed ++ pk) = pk) by exact (skipn_seed seed pk L).
    assert (EK : pk = encode (smul (clamped (firstn 32 (xof seed 64))) pB)) by (rewrite <- EX; reflexivity).
    rewrite PK. clearbody pk. intros x r.
    assert (ES : scalar_of xof (seed ++ pk) = x) by (unfold scalar_of; rewrite expand_seed by exact L; exact (scalar_clamped seed L)).
    assert (EN : le_value (nonce xof (seed ++ pk) m) = r).
    { unfold nonce. rewrite expand_seed by exact L. rewrite (skipn_seed seed pk L). unfold expandSecret. cbv zeta. cbn [snd]. rewrite (firstn_all2 seed) by lia.
      exact (proj2 (ScReduce_ok _ (xof_len _ _))). }
    destruct (Prove_nonce xof xof_len (seed ++ pk) m) as (H & s & t & HH & Ls & Lt & EP & Vs & Vt).
    destruct (Compute_ok xof xof_len (seed ++ pk) m) as (H' & HH' & EC).
    rewrite (H1_unique xof m H' H HH' HH) in EC. rewrite EN, ES in Vs, Vt. rewrite ES in EP, EC. rewrite (skipn_seed seed pk L) in Vs.
    exists H, s, t. split; [exact HH|]. split; [exact Ls|]. split; [exact Lt|]. split; [exact EC|]. split; [exact EP|].
    split; [exact EK|].
    split; [|split; [|split; [exact Vs|exact Vt]]]; clear EK EX ES EN EP EC Vs; clearbody r x.
    - rewrite <- smul_mul, <- smul_add. apply (sub_cong _ _ _ B_order). rewrite Vt, Zplus_mod_idemp_r. f_equal. ring.
    - rewrite <- smul_mul, <- smul_add. apply (sub_cong _ _ _ (H1_sub xof m H HH)). rewrite Vt, Zplus_mod_idemp_l. f_equal. ring.
  Qed.
  (** Proofs for two different messages under one key use different numbers r, unless
      the hash function gives the same number modulo L on the two inputs shown. *)
  Theorem C77_distinct : forall seed pk m m', m <> m' -> hiding xof seed pk m = hiding xof seed pk m' ->
    xof_collision xof 64 (skipn 32 (xof seed 64) ++ pk ++ m) (skipn 32 (xof seed 64) ++ pk ++ m').
  Proof.
    intros seed pk m m' N E. split; [|exact E]. intro Q. apply N. apply app_inv_head in Q. apply app_inv_head in Q. exact Q.
  Qed.
End Nonce.

Lemma smul_eq_B a b : smul a pB = smul b pB -> (L25519 | a - b).
Proof. intro E. apply (sub_order pB _ B_order B_not_O). rewrite smul_sub, E. apply padd_opp_r. Qed.
(** If two proofs with different s share the point s P + t B, anyone can compute the
    secret modulo L from them -- enough to compute the VRF. *)
Definition recover (w t t' : Z) : Z := (w * (t' - t)) mod L25519.
Theorem C77_reuse : forall x s t s' t', ~ (L25519 | s - s') ->
  padd (smul s (smul x pB)) (smul t pB) = padd (smul s' (smul x pB)) (smul t' pB) ->
  exists w, ((s - s') * w) mod L25519 = 1 /\ recover w t t' = x mod L25519 /\
    smul (recover w t t') pB = smul x pB /\ forall H, smul L25519 H = pO -> smul (recover w t t') H = smul x H.
Proof.
  intros x s t s' t' N E. destruct (mod_inv _ N) as [w W]. exists w. split; [exact W|].
  rewrite <- !smul_mul, <- !smul_add in E. apply smul_eq_B in E. destruct E as [k K].
  assert (R : recover w t t' = x mod L25519).
  { unfold recover. assert (T : t' - t = (s - s') * x + (- k) * L25519) by lia. rewrite T.
    replace (w * ((s - s') * x + (- k) * L25519)) with (x * ((s - s') * w) + (- (w * k)) * L25519) by ring.
    rewrite Z_mod_plus_full, <- Zmult_mod_idemp_r, W. f_equal. ring. }
  split; [exact R|]. rewrite R. pose proof L_pos as LP.
  split; [apply (sub_cong _ _ _ B_order)|intros H SH; apply (sub_cong _ _ _ SH)]; apply Z.mod_mod; lia.
Qed.
(** Conversely, what makes this impossible for honest proofs: two of them, for
    different messages under one key, share the point only if the hash function
    collides as in [C77_distinct]. *)
Theorem C77_no_reuse : forall xof, (forall m n, length (xof m n) = n) -> forall seed sk m m', length seed = 32%nat -> GenerateKey xof (Some seed) = Some sk ->
  m <> m' -> forall v s t hx v' s' t' hx', Prove xof sk m = Some (v, s ++ t ++ hx) -> Prove xof sk m' = Some (v', s' ++ t' ++ hx') ->
  length s = 32%nat -> length t = 32%nat -> length s' = 32%nat -> length t' = 32%nat ->
  forall P, Public sk = encode P ->
  padd (smul (le_value s) P) (smul (le_value t) pB) = padd (smul (le_value s') P) (smul (le_value t') pB) ->
  xof_collision xof 64 (skipn 32 (xof seed 64%nat) ++ Public sk ++ m) (skipn 32 (xof seed 64%nat) ++ Public sk ++ m').
Proof.
  intros xof XL seed sk m m' L G N v s t hx v' s' t' hx' E E' Ls Lt Ls' Lt' P EP Q.
  destruct (C77_nonce xof XL seed sk m L G) as (H & s1 & t1 & _ & L1 & L2 & _ & E1 & EP1 & A & _).
  destruct (C77_nonce xof XL seed sk m' L G) as (H' & s2 & t2 & _ & L1' & L2' & _ & E2 & _ & A' & _).
  rewrite EP in EP1. apply encode_inj in EP1. subst P. rewrite E in E1. rewrite E' in E2. apply (f_equal (fun o => match o with Some p => snd p | None => [] end)) in E1, E2. cbn [snd] in E1, E2.
  apply app_inj_len in E1; [|rewrite Ls, L1; reflexivity]. destruct E1 as [-> E1]. apply app_inj_len in E1; [|rewrite Lt, L2; reflexivity]. destruct E1 as [-> _].
  apply app_inj_len in E2; [|rewrite Ls', L1'; reflexivity]. destruct E2 as [-> E2]. apply app_inj_len in E2; [|rewrite Lt', L2'; reflexivity]. destruct E2 as [-> _].
  rewrite A, A' in Q. apply C77_distinct; [exact N|]. apply smul_eq_B in Q. destruct Q as [k K].
  assert (B1 : 0 <= hiding xof seed (Public sk) m < L25519) by apply Z.mod_pos_bound, L_pos.
  assert (B2 : 0 <= hiding xof seed (Public sk) m' < L25519) by apply Z.mod_pos_bound, L_pos.
  set (a := hiding xof seed (Public sk) m) in *. set (b := hiding xof seed (Public sk) m') in *. clearbody a b.
  assert (k = 0) by nia. lia.
Qed.

(** ** Instances *)
(** The constant hash function [xof5] gives a key with x = 2^254.  For the key 7 B,
    the pairs (1, 0) and (0, 7) share a point and differ in s. *)
Example C77_key_example : exists sk, GenerateKey xof5 (Some zero_bytes) = Some sk /\ length sk = 64%nat /\ Public sk = encode (smul (2 ^ 254) pB).
Proof.
  destruct (C49_generate xof5 xof5_len zero_bytes eq_refl) as (x & pk & G & Pk & Lk & _). exists (zero_bytes ++ pk). split; [exact G|].
  split; [rewrite app_length, Lk; reflexivity|]. rewrite (C77_key xof5 xof5_len zero_bytes _ eq_refl G). unfold Public. rewrite (skipn_seed zero_bytes _ eq_refl).
  assert (E : clamped (firstn 32 (xof5 zero_bytes 64%nat)) = 2 ^ 254) by (vm_compute; reflexivity). rewrite E. reflexivity.
Qed.
Example C77_reuse_example : ~ (L25519 | 1 - 0) /\
  padd (smul 1 (smul 7 pB)) (smul 0 pB) = padd (smul 0 (smul 7 pB)) (smul 7 pB).
Proof.
  split; [intro D; apply Z.divide_pos_le in D; [revert D; apply Z.lt_nge; reflexivity|reflexivity]|]. rewrite <- !smul_mul, <- !smul_add. reflexivity.
Qed.

Print Assumptions C77_key.
Print Assumptions C77_nonce.
Print Assumptions C77_distinct.
Print Assumptions C77_reuse.
Print Assumptions C77_no_reuse.
