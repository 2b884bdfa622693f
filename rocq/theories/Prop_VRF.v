(** C49 (completeness), C62 (what verification accepts), C63 (uniqueness of the
    value), C64 (the VRF as used by the rest of the model).

    Specification: VRFSpec.v, over the curve group of Prop_Curve.v.  [xof] stands
    for SHAKE256; only that it returns as many bytes as asked for is assumed. *)
From Coq Require Import List NArith ZArith Lia Bool Arith Znumtheory Field.
From Verif Require Import Base Utils Crypto Extra25519 GoInt Field FieldSpec EdConst Group Fp EdGroup EdOrder Scalar.
From Verif Require Import FieldBytes GroupFacts EncFacts MulFacts BaseFacts SmulFacts PointFacts EdCyclic VRF VRFSpec VRFFacts.
Import ListNotations.
Local Open Scope Z_scope.
Local Notation nlen := (@length Byte.byte).

Section VRFTheorems.
  Variable xof : bytes -> nat -> bytes.
  Hypothesis xof_len : forall m n, length (xof m n) = n.

  (** ** C49 *)
  (** Key generation from 32 random bytes succeeds; the private key is the seed
      followed by the public key; the public key is x B for a secret x that is
      not a multiple of L. *)
  Theorem C49_generate : forall seed, length seed = 32%nat -> exists x pk,
    GenerateKey xof (Some seed) = Some (seed ++ pk) /\ Public (seed ++ pk) = pk /\ length pk = 32%nat /\
    2 ^ 254 <= x < 2 ^ 255 /\ x mod 8 = 0 /\ pk = encode (smul x pB) /\ smul x pB <> pO.
  Proof.
    intros seed L. exists (scalar_of xof seed), (encode (smul (scalar_of xof seed) pB)).
    split; [exact (GenerateKey_ok xof xof_len seed L)|]. split; [exact (skipn_seed seed _ L)|]. split; [apply encode_length|].
    destruct (secret_ok xof xof_len seed) as (_ & _ & B & D). split; [exact B|].
    split; [apply Z.mod_divide; [lia|exact D]|]. split; [reflexivity|exact (proj2 (public_prime_order xof xof_len seed))].
  Qed.

  Lemma honest_valid seed m H s t r : length seed = 32%nat -> H1 xof m H -> H <> pO ->
    let x := scalar_of xof seed in let pk := encode (smul x pB) in let hx := encode (smul x H) in
    s = H2 xof H pk hx (smul r pB) (smul r H) m -> t = (r - x * s) mod L25519 ->
    valid_proof xof pk m (xof (hx ++ m) 32) s t hx.
  Proof.
    intros L HH HN x pk hx Es Et. split; [reflexivity|]. exists (smul x pB), (smul x H), H.
    pose proof (H1_sub xof m H HH) as SH.
    destruct (secret_ok xof xof_len seed) as (_ & _ & B & D). fold (scalar_of xof seed) in B, D. fold x in B, D.
    split; [reflexivity|]. split; [exact (public_prime_order xof xof_len seed)|]. split; [reflexivity|].
    split; [split; [apply sub_smul, SH|]|split; [exact HH|]].
    - intro Z0. apply (sub_order H _ SH HN) in Z0. revert Z0. apply clamped_nonzero; [exact B|exact D].
    - assert (Ea : padd (smul s (smul x pB)) (smul t pB) = smul r pB).
      { rewrite <- smul_mul, <- smul_add. apply (sub_cong _ _ _ B_order). rewrite Et, Zplus_mod_idemp_r. f_equal. ring. }
      assert (Eb : padd (smul t H) (smul s (smul x H)) = smul r H).
      { rewrite <- smul_mul, <- smul_add. apply (sub_cong _ _ _ SH). rewrite Et, Zplus_mod_idemp_l. f_equal. ring. }
      rewrite Ea, Eb. exact Es.
  Qed.
  (** For every seed and message: [Prove] and [Compute] return (no panic), they
      return the same 32-byte value, the proof has 96 bytes, and it verifies if and
      only if the message is not hashed to the neutral element of the group. *)
  Theorem C49_completeness : forall seed sk m, length seed = 32%nat -> GenerateKey xof (Some seed) = Some sk ->
    exists vrf proof, Prove xof sk m = Some (vrf, proof) /\ Compute xof sk m = Some vrf /\
      length vrf = 32%nat /\ length proof = 96%nat /\
      exists b, Verify xof (Public sk) m vrf proof = Some b /\ (b = true <-> ~ H1 xof m pO).
  Proof.
    intros seed sk m L G. rewrite (GenerateKey_ok xof xof_len seed L) in G. injection G as <-.
    set (pk := encode (smul (scalar_of xof seed) pB)).
    assert (ES : scalar_of xof (seed ++ pk) = scalar_of xof seed) by (unfold scalar_of; rewrite expand_seed by exact L; reflexivity).
    destruct (Prove_ok xof xof_len (seed ++ pk) m) as (H & s & t & r & HH & Ls & Lt & Rr & EP & Vs & Vt).
    destruct (Compute_ok xof xof_len (seed ++ pk) m) as (H' & HH' & EC).
    rewrite (H1_unique xof m H' H HH' HH) in EC. rewrite ES in EP, Vs, Vt, EC. rewrite (skipn_seed seed pk L) in Vs.
    set (x := scalar_of xof seed) in *. set (hx := encode (smul x H)) in *.
    exists (xof (hx ++ m) 32), (s ++ t ++ hx). split; [exact EP|]. split; [exact EC|]. split; [apply xof_len|].
    split; [rewrite !app_length, Ls, Lt; unfold hx; rewrite encode_length; reflexivity|].
    unfold Public. rewrite (skipn_seed seed pk L).
    destruct (Verify_spec xof xof_len pk m (xof (hx ++ m) 32) s t hx Ls Lt (encode_length _)) as (b & EV & IV).
    exists b. split; [exact EV|]. rewrite IV. split.
    - intros (_ & P & I & H0 & _ & _ & EI & [_ NI] & _ & _) HO. apply NI. apply encode_inj. rewrite <- EI. unfold hx.
      rewrite (H1_unique xof m H pO HH HO). now rewrite smul_O.
    - intro NO. assert (HN : H <> pO) by (intros ->; exact (NO HH)).
      assert (RT : 0 <= le_value t < L25519) by (rewrite Vt; apply Z.mod_pos_bound, L_pos).
      assert (LT : le_value t < 2 ^ 255 + 15) by (assert (L25519 < 2 ^ 255 + 15) by reflexivity; lia).
      rewrite (slide_value t Lt LT). exact (honest_valid seed m H (le_value s) (le_value t) r L HH HN Vs Vt).
  Qed.

  (** ** C62 *)
  (** Verification never panics, and accepts exactly: the three lengths are right;
      the public key and the proof's point are canonical encodings of points P and
      I of order L; the value is the hash of I and the message; and s is the hash of
      (B, H(m), P, I, sP+tB, tH(m)+sI, m) modulo L.  Here s is the little-endian
      number of the proof's first 32 bytes, and t the one of the next 32 as long as
      it is below 2^255 + 15 (in general, the sum of its signed digits). *)
  Theorem C62_verify_iff : forall pk m vrf proof,
    exists b, Verify xof pk m vrf proof = Some b /\
    (b = true <-> exists s t hx, proof = s ++ t ++ hx /\ length s = 32%nat /\ length t = 32%nat /\ length hx = 32%nat /\
       valid_proof xof pk m vrf (le_value s) (if Z.ltb (le_value t) (2 ^ 255 + 15) then le_value t else dv (slide t)) hx).
  Proof.
    intros pk m vrf proof.
    assert (DT : forall t, length t = 32%nat -> (if Z.ltb (le_value t) (2 ^ 255 + 15) then le_value t else dv (slide t)) = dv (slide t)).
    { intros t Lt. destruct (Z.ltb_spec (le_value t) (2 ^ 255 + 15)) as [A|A]; [|reflexivity]. symmetry. exact (slide_value t Lt A). }
    destruct (Nat.eq_dec (length proof) 96) as [L|L].
    - rewrite (split_proof proof L). set (s := firstn 32 proof). set (t := firstn 32 (skipn 32 proof)). set (hx := skipn 64 proof).
      assert (Ls : length s = 32%nat) by (unfold s; rewrite firstn_length, L; reflexivity).
      assert (Lt : length t = 32%nat) by (unfold t; rewrite firstn_length, skipn_length, L; reflexivity).
      assert (Lx : length hx = 32%nat) by (unfold hx; rewrite skipn_length, L; reflexivity).
      clearbody s t hx. destruct (Verify_spec xof xof_len pk m vrf s t hx Ls Lt Lx) as (b & E & I). exists b. split; [exact E|]. rewrite I. split.
      + intro V. exists s, t, hx. split; [reflexivity|]. split; [exact Ls|]. split; [exact Lt|]. split; [exact Lx|]. rewrite (DT t Lt). exact V.
      + intros (s' & t' & hx' & Q & Ls' & Lt' & Lx' & V). rewrite (DT t' Lt') in V.
        apply app_inj_len in Q; [|rewrite Ls, Ls'; reflexivity]. destruct Q as [<- Q]. apply app_inj_len in Q; [|rewrite Lt, Lt'; reflexivity]. destruct Q as [<- <-]. exact V.
    - exists false. split.
      + unfold Verify. apply Nat.eqb_neq in L. rewrite L. reflexivity.
      + split; [intro Q; discriminate Q|]. intros (s & t & hx & -> & Ls & Lt & Lx & _). exfalso. apply L. rewrite !app_length, Ls, Lt, Lx. reflexivity.
  Qed.
  (** So wrong lengths, keys outside the group and values that do not belong to the proof are rejected. *)
  Theorem C62_rejects : forall pk m vrf proof, Verify xof pk m vrf proof = Some true ->
    length pk = 32%nat /\ length vrf = 32%nat /\ length proof = 96%nat /\
    vrf = xof (skipn 64 proof ++ m) 32 /\
    (exists x, 0 < x < L25519 /\ pk = encode (smul x pB)) /\ (exists y, 0 < y < L25519 /\ skipn 64 proof = encode (smul y pB)).
  Proof.
    intros pk m vrf proof E. destruct (C62_verify_iff pk m vrf proof) as (b & E' & I). rewrite E in E'. injection E' as <-.
    destruct (proj1 I eq_refl) as (s & t & hx & -> & Ls & Lt & Lx & V & P & J & H & Ek & [SP NP] & Ex & [SJ NJ] & _).
    assert (K : skipn 64 (s ++ t ++ hx) = hx).
    { rewrite app_assoc, skipn_app. rewrite skipn_all2 by (rewrite app_length, Ls, Lt; reflexivity). rewrite app_length, Ls, Lt. reflexivity. }
    rewrite K. split; [rewrite Ek; apply encode_length|]. split; [rewrite V; apply xof_len|].
    split; [rewrite !app_length, Ls, Lt, Lx; reflexivity|]. split; [exact V|].
    assert (Q : forall R, smul L25519 R = pO -> R <> pO -> exists x, 0 < x < L25519 /\ encode R = encode (smul x pB)).
    { intros R SR NR. destruct (sub_base R SR) as (x & Rx & Hx). exists x. split; [|now rewrite Hx].
      destruct (Z.eq_dec x 0) as [Z0|]; [|lia]. exfalso. apply NR. rewrite Hx, Z0. reflexivity. }
    split; [rewrite Ek; exact (Q P SP NP)|rewrite Ex; exact (Q J SJ NJ)].
  Qed.
End VRFTheorems.

(** ** C63 *)
Lemma mod_inv a : ~ (L25519 | a) -> exists b, (a * b) mod L25519 = 1.
Proof.
  intro N. pose proof (prime_rel_prime _ L_prime a N) as R. apply rel_prime_sym, rel_prime_bezout in R. destruct R as [u v E].
  exists u. replace (a * u) with (1 + (- v) * L25519) by lia. rewrite Z_mod_plus_full. reflexivity.
Qed.
(** The secret scalar of a public key is unique modulo L, and determines the value:
    if the proof's point is the right one, the value is what [Compute] returns for
    any private key with that public key. *)
Theorem C63_honest_value : forall xof, (forall m n, length (xof m n) = n) -> forall seed sk m vrf proof,
  length seed = 32%nat -> GenerateKey xof (Some seed) = Some sk -> Verify xof (Public sk) m vrf proof = Some true ->
  forall x H, Public sk = encode (smul x pB) -> H1 xof m H -> skipn 64 proof = encode (smul x H) -> Compute xof sk m = Some vrf.
Proof.
  intros xof XL seed sk m vrf proof L G V x H Ex HH Eh.
  destruct (C62_rejects xof XL _ _ _ _ V) as (_ & _ & _ & Ev & _). rewrite Eh in Ev. rewrite Ev.
  rewrite (GenerateKey_ok xof XL seed L) in G. injection G as <-.
  unfold Public in Ex. rewrite (skipn_seed seed _ L) in Ex. apply encode_inj in Ex.
  destruct (Compute_ok xof XL (seed ++ encode (smul (scalar_of xof seed) pB)) m) as (H' & HH' & ->). rewrite (H1_unique xof m H' H HH' HH).
  assert (E : scalar_of xof (seed ++ encode (smul (scalar_of xof seed) pB)) = scalar_of xof seed) by (unfold scalar_of; rewrite expand_seed by exact L; reflexivity).
  rewrite E. do 4 f_equal.
  pose proof (H1_sub xof m H HH) as SH. destruct (sub_base H SH) as (h & _ & ->). rewrite <- !smul_mul.
  rewrite (Z.mul_comm _ h), (Z.mul_comm x h), !smul_mul, Ex. reflexivity.
Qed.
(** Soundness.  Fix a public key x B, a message hashed to H, and a proof point I
    that is not the right one (x H).  Then for any two points A, A' a prover commits
    to there is a single number c, fixed before the hash function is evaluated,
    such that a proof with these commitments is accepted only if the hash of
    (B, H, pk, I, A, A', m) equals c modulo L.  The hash function is quantified
    after c: it takes a hit of one number out of L > 2^252. *)
Theorem C63_soundness : forall pk m hx (x : Z) (H I A A' : point),
  pk = encode (smul x pB) -> hx = encode I -> smul L25519 H = pO -> smul L25519 I = pO -> I <> smul x H ->
  exists c, 0 <= c < L25519 /\ forall xof, (forall m n, length (xof m n) = n) -> H1 xof m H ->
    forall vrf s t, length s = 32%nat -> length t = 32%nat -> Verify xof pk m vrf (s ++ t ++ hx) = Some true ->
    padd (smul (le_value s) (smul x pB)) (smul (dv (slide t)) pB) = A -> padd (smul (dv (slide t)) H) (smul (le_value s) I) = A' ->
    le_value s = c /\
    le_value (xof (encode pB ++ encode H ++ pk ++ hx ++ encode A ++ encode A' ++ m) 64%nat) mod L25519 = c.
Proof.
  intros pk m hx x H I A A' Epk Ehx SH SI NI.
  destruct (sub_base H SH) as (h & _ & EH). destruct (sub_base I SI) as (i & _ & EI).
  assert (ND : ~ (L25519 | i - x * h)).
  { intros [k K]. apply NI. rewrite EI, EH, <- smul_mul. apply (sub_cong _ _ _ B_order). replace i with (x * h + k * L25519) by lia. apply Z_mod_plus_full. }
  destruct (mod_inv _ ND) as [w W].
  destruct (Z_lt_dec 0 1) as [_|]; [|lia].
  (* the logarithms of A and A', if they have any *)
  assert (CA : (exists a, A = smul a pB) \/ ~ (exists a, A = smul a pB)).
  { destruct (point_dec (smul L25519 A) pO) as [D|D]; [left; destruct (sub_base A D) as (a & _ & E); exists a; exact E|right].
    intros [a E]. apply D. rewrite E. apply sub_smul, B_order. }
  assert (CA' : (exists a, A' = smul a pB) \/ ~ (exists a, A' = smul a pB)).
  { destruct (point_dec (smul L25519 A') pO) as [D|D]; [left; destruct (sub_base A' D) as (a & _ & E); exists a; exact E|right].
    intros [a E]. apply D. rewrite E. apply sub_smul, B_order. }
  assert (HA : forall s t, padd (smul s (smul x pB)) (smul t pB) = smul (s * x + t) pB) by (intros; rewrite <- smul_mul, <- smul_add; reflexivity).
  assert (HA' : forall s t, padd (smul t H) (smul s I) = smul (t * h + s * i) pB) by (intros; rewrite EH, EI, <- !smul_mul, <- smul_add; reflexivity).
  destruct CA as [[a Ea]|NA].
  2: { exists 0. split; [vm_compute; split; [discriminate|reflexivity]|]. intros xof XL HH vrf s t Ls Lt V E1 _. exfalso. apply NA. rewrite HA in E1. eexists. symmetry. exact E1. }
  destruct CA' as [[a' Ea']|NA].
  2: { exists 0. split; [vm_compute; split; [discriminate|reflexivity]|]. intros xof XL HH vrf s t Ls Lt V _ E2. exfalso. apply NA. rewrite HA' in E2. eexists. symmetry. exact E2. }
  exists (((a' - a * h) * w) mod L25519). split; [apply Z.mod_pos_bound, L_pos|].
  intros xof XL HH vrf s t Ls Lt V E1 E2.
  destruct (Verify_spec xof XL pk m vrf s t hx Ls Lt) as (b & EV & IV); [rewrite Ehx; apply encode_length|].
  rewrite V in EV. injection EV as <-. destruct (proj1 IV eq_refl) as (_ & P & J & H' & Ek & _ & Ej & _ & HH' & Es).
  rewrite Epk in Ek. apply encode_inj in Ek. subst P. rewrite Ehx in Ej. apply encode_inj in Ej. subst J.
  rewrite (H1_unique xof m H' H HH' HH) in Es. rewrite E1, E2 in Es.
  assert (R : 0 <= le_value s < L25519) by (rewrite Es; apply H2_range).
  assert (Q : le_value s = ((a' - a * h) * w) mod L25519).
  { rewrite HA, Ea in E1. rewrite HA', Ea' in E2. clear Es IV V Ls Lt. generalize dependent (dv (slide t)). intros tv E1 E2.
    set (sv := le_value s) in *. clearbody sv.
    assert (D1 : (L25519 | (sv * x + tv) - a)) by (apply (sub_order pB _ B_order B_not_O); rewrite smul_sub, E1; apply padd_opp_r).
    assert (D2 : (L25519 | (tv * h + sv * i) - a')) by (apply (sub_order pB _ B_order B_not_O); rewrite smul_sub, E2; apply padd_opp_r).
    destruct D1 as [k1 K1]. destruct D2 as [k2 K2].
    assert (M : a' - a * h = sv * (i - x * h) + (k1 * h - k2) * L25519) by nia.
    rewrite M. rewrite Z.mul_add_distr_r. replace ((k1 * h - k2) * L25519 * w) with ((k1 * h - k2) * w * L25519) by ring.
    rewrite Z_mod_plus_full. rewrite <- Z.mul_assoc, Zmult_mod, W, Z.mul_1_r, Z.mod_mod by (intro Z0; discriminate Z0).
    symmetry. apply Z.mod_small. exact R. }
  split; [exact Q|]. rewrite <- Q. symmetry. exact Es.
Qed.
(** The proof string itself is not unique: adding L to its second part keeps it valid. *)
Theorem C63_proof_malleable : forall xof, (forall m n, length (xof m n) = n) -> forall pk m vrf s t hx,
  length s = 32%nat -> length t = 32%nat -> length hx = 32%nat -> le_value t < L25519 ->
  Verify xof pk m vrf (s ++ t ++ hx) = Some true ->
  Verify xof pk m vrf (s ++ zbytes 32 (le_value t + L25519) ++ hx) = Some true /\ zbytes 32 (le_value t + L25519) <> t.
Proof.
  intros xof XL pk m vrf s t hx Ls Lt Lx Rt V. set (t' := zbytes 32 (le_value t + L25519)).
  assert (L2 : L25519 + L25519 < 2 ^ 255) by reflexivity. pose proof (le_value_bound t) as Bt. pose proof L_pos as LP.
  assert (V' : le_value t' = le_value t + L25519) by (unfold t'; rewrite zbytes_value; apply Z.mod_small; change (256 ^ Z.of_nat 32) with (2 ^ 256); lia).
  assert (Lt' : length t' = 32%nat) by apply zbytes_length.
  split.
  - destruct (Verify_spec xof XL pk m vrf s t hx Ls Lt Lx) as (b & E & I). rewrite V in E. injection E as <-.
    destruct (Verify_spec xof XL pk m vrf s t' hx Ls Lt' Lx) as (b' & E' & I'). rewrite E'. f_equal. apply I'. apply proj1 in I. specialize (I eq_refl).
    rewrite (slide_value t Lt) in I by lia. rewrite (slide_value t' Lt') by lia. rewrite V'.
    destruct I as (Ev & P & J & H & Ek & OP & Ex & OJ & HH & Es). split; [exact Ev|]. exists P, J, H.
    split; [exact Ek|]. split; [exact OP|]. split; [exact Ex|]. split; [exact OJ|]. split; [exact HH|].
    rewrite !smul_add, B_order, padd_O_r. rewrite (H1_sub xof m H HH), padd_O_r. exact Es.
  - intro Q. rewrite Q in V'. lia.
Qed.

(** ** C64 *)
(** The abstract VRF of the directory model, instantiated with the code.  A private
    key is determined by its seed, cut or padded to 32 bytes. *)
Definition seed32 (sk : bytes) : bytes := firstn 32 (sk ++ zero_bytes).
Definition key_of (xof : bytes -> nat -> bytes) (sk : bytes) : bytes := match GenerateKey xof (Some (seed32 sk)) with Some k => k | None => [] end.
Definition CodeCrypto (xof : bytes -> nat -> bytes) (hash : bytes -> bytes) (spub : bytes -> bytes) (ssign : bytes -> bytes -> bytes) (sver : bytes -> bytes -> bytes -> bool) : Crypto := {|
  shake := hash; sign_pub := spub; sign_sign := ssign; sign_verify := sver;
  vrf_pub sk := Public (key_of xof sk);
  vrf_prove sk m := match Prove xof (key_of xof sk) m with Some r => r | None => ([], []) end;
  vrf_verify pk m i p := match Verify xof pk m i p with Some b => b | None => false end |}.
Lemma seed32_length sk : length (seed32 sk) = 32%nat.
Proof. unfold seed32. rewrite firstn_length, app_length, (proj1 zero_bytes_ok). lia. Qed.
(** All laws assumed of the VRF by the theorems about trees, directories, clients
    and auditors hold of the code; and the proof of a name is accepted, as those
    about honest directories require ([vrf_good]), unless the name is hashed to
    the neutral element. *)
Theorem C64_code_satisfies_laws : forall xof hash spub ssign sver,
  (forall m n, length (xof m n) = n) ->
  (forall x, length (hash x) = 32%nat) -> (forall sk m, length (ssign sk m) = 64%nat) -> (forall sk m, sver (spub sk) m (ssign sk m) = true) ->
  CryptoOk (CodeCrypto xof hash spub ssign sver) /\
  forall sk m, let C := CodeCrypto xof hash spub ssign sver in
    @vrf_verify C (@vrf_pub C sk) m (fst (@vrf_prove C sk m)) (snd (@vrf_prove C sk m)) = true <-> ~ H1 xof m pO.
Proof.
  intros xof hash spub ssign sver XL HL SL SV.
  assert (K : forall sk, GenerateKey xof (Some (seed32 sk)) = Some (key_of xof sk)).
  { intro sk. unfold key_of. rewrite (GenerateKey_ok xof XL (seed32 sk) (seed32_length sk)). reflexivity. }
  split; [constructor|]; cbn [shake sign_pub sign_sign sign_verify vrf_pub vrf_prove vrf_verify CodeCrypto].
  - exact HL.
  - exact SL.
  - exact SV.
  - intro sk. destruct (C49_generate xof XL (seed32 sk) (seed32_length sk)) as (x & pk & G & Pk & Lk & _). rewrite K in G. injection G as ->. rewrite Pk. exact Lk.
  - intros sk m. destruct (C49_completeness xof XL _ _ m (seed32_length sk) (K sk)) as (v & p & -> & _ & L & _). exact L.
  - intros pk m i p. destruct (Verify xof pk m i p) as [[]|] eqn:E; intro Q; try discriminate Q. destruct (C62_rejects xof XL _ _ _ _ E) as (_ & L & _). exact L.
  - intros sk m. cbv zeta. destruct (C49_completeness xof XL _ _ m (seed32_length sk) (K sk)) as (v & p & -> & _ & _ & _ & b & V & I). cbn [fst snd]. rewrite V. exact I.
Qed.

(** ** Instances *)
(** Two toy hash functions, constant: one gives a proper point, one the neutral element. *)
Definition xof5 (m : bytes) (n : nat) : bytes := firstn n (x05 :: repeat x00 n).
Definition xof0 (m : bytes) (n : nat) : bytes := repeat x00 n.
Lemma xof5_len m n : length (xof5 m n) = n.
Proof. unfold xof5. rewrite firstn_length. cbn [length]. rewrite repeat_length. lia. Qed.
Lemma xof0_len m n : length (xof0 m n) = n.
Proof. apply repeat_length. Qed.
Lemma ell_u_nonsq r v w m : ell_v r = v -> w <> F0 -> ((F1 + F1) * (w * w) = mont v)%F -> (- v - FA = m)%F -> ell_u r = m.
Proof.
  intros V W S <-. unfold ell_u. rewrite V. pose proof (twice_square_chi _ _ W S) as C. destruct (F_dec (Fchi (mont v)) (- F1)%F) as [E|E]; [reflexivity|].
  exfalso. apply E, C.
Qed.
Lemma ell_v_check r v : (v * (F1 + (F1 + F1) * (r * r)) = - FA)%F -> ell_v r = v.
Proof.
  intro H. unfold ell_v. pose proof (ell_den r) as D. set (k := (F1 + (F1 + F1) * (r * r))%F) in *. clearbody k.
  transitivity ((- FA) / k)%F; [field; exact D|]. rewrite <- H. field. exact D.
Qed.
Lemma ell_y_check u y : (u + F1 <> F0)%F -> (y * (u + F1) = u - F1)%F -> ell_y u = y.
Proof.
  intros N H. unfold ell_y. rewrite <- H. set (k := (u + F1)%F) in *. clearbody k. transitivity ((k / k) * y)%F; [rewrite Fdiv_def; ring|]. field. exact N.
Qed.
Ltac zf := rewrite ?F0_def, <- ?Z2F_one; repeat first [rewrite <- Z2F_add|rewrite <- Z2F_mul|rewrite <- Z2F_sub|rewrite <- Z2F_opp].
Definition v5 : Z := 36326929956805080917198740394882480895143524600985274992771006747580589681406.
Definition u5 : Z := 21569114661853016794586752109461473031491467731835007026957785256375974651881.
Definition y5 : Z := 43009515162080897632610545212005618046425831869853871337876553532943631021209.
Definition x5 : Z := 26091691810278965839842654121574732697930787056135487350523835108969138103940.
Lemma on5 : oncurve (Z2F x5) (Z2F y5).
Proof. apply zoncurve_ok. vm_compute. reflexivity. Qed.
Lemma on5' : oncurve (Z2F (- x5)) (Z2F y5).
Proof. apply zoncurve_ok. vm_compute. reflexivity. Qed.
Lemma ell5 : ell_y (ell_u (Z2F 5)) = Z2F y5.
Proof.
  assert (U : ell_u (Z2F 5) = Z2F u5).
  { apply (ell_u_nonsq _ (Z2F v5) (Z2F 27772278175339065498407207020418222769496531915179306894997695090915657851422)).
    - apply ell_v_check. unfold FA. zf. apply Z2F_eq. vm_compute. reflexivity.
    - rewrite ?F0_def, Z2F_eq. vm_compute. discriminate.
    - unfold mont, FA. zf. apply Z2F_eq. vm_compute. reflexivity.
    - unfold FA. zf. apply Z2F_eq. vm_compute. reflexivity. }
  rewrite U. apply ell_y_check.
  - zf. rewrite ?F0_def, Z2F_eq. vm_compute. discriminate.
  - zf. apply Z2F_eq. vm_compute. reflexivity.
Qed.
Lemma xof5_proper m : ~ H1 xof5 m pO.
Proof.
  intros (E & (Y & _) & H). symmetry in H.
  assert (R : (le_value (xof5 m 32%nat) mod 2 ^ 255)%Z = 5%Z) by (vm_compute; reflexivity). rewrite R, ell5 in Y.
  pose proof (onP E) as O. rewrite Y in O. destruct (same_y _ _ _ on5 O) as [X|X].
  - assert (Q : E = mkP _ _ on5) by (apply point_ext; [exact X|exact Y]). rewrite Q in H. revert H.
    rewrite (smul_isO 8 x5 y5 _ (zrep_affine x5 y5 on5)). apply not_true_iff_false. vm_compute. reflexivity.
  - rewrite <- Z2F_opp in X. assert (Q : E = mkP _ _ on5') by (apply point_ext; [exact X|exact Y]). rewrite Q in H. revert H.
    rewrite (smul_isO 8 (- x5) y5 _ (zrep_affine (- x5) y5 on5')). apply not_true_iff_false. vm_compute. reflexivity.
Qed.
Lemma ell0 : ell_y (ell_u (Z2F 0)) = Z2F (-1).
Proof.
  assert (U : ell_u (Z2F 0) = Z2F 0).
  { apply (ell_u_nonsq _ (Z2F (- 486662)) (Z2F 10874569126840174374840134787475590851473285822406254303122497576729732950320)).
    - apply ell_v_check. unfold FA. zf. apply Z2F_eq. vm_compute. reflexivity.
    - rewrite ?F0_def, Z2F_eq. vm_compute. discriminate.
    - unfold mont, FA. zf. apply Z2F_eq. vm_compute. reflexivity.
    - unfold FA. zf. apply Z2F_eq. vm_compute. reflexivity. }
  rewrite U. apply ell_y_check.
  - zf. rewrite ?F0_def, Z2F_eq. vm_compute. discriminate.
  - zf. apply Z2F_eq. vm_compute. reflexivity.
Qed.
Lemma on0 : oncurve (Z2F 0) (Z2F (-1)).
Proof. apply zoncurve_ok. vm_compute. reflexivity. Qed.
Lemma xof0_neutral m : H1 xof0 m pO.
Proof.
  exists (mkP _ _ on0). split.
  - split.
    + assert (R : (le_value (xof0 m 32%nat) mod 2 ^ 255)%Z = 0%Z) by (vm_compute; reflexivity). rewrite R. symmetry. exact ell0.
    + left. symmetry. exact F0_def.
  - symmetry. apply (smul_isO 8 0 (-1) _ (zrep_affine 0 (-1) on0)). vm_compute. reflexivity.
Qed.
(** Completeness without its condition is false: for a hash function that reaches
    the all-zero string, an honest proof is rejected. *)
Theorem C49_unconditional_refuted : ~ (forall xof, (forall m n, length (xof m n) = n) -> forall seed sk m vrf proof, length seed = 32%nat ->
  GenerateKey xof (Some seed) = Some sk -> Prove xof sk m = Some (vrf, proof) -> Verify xof (Public sk) m vrf proof = Some true).
Proof.
  intro A. destruct (C49_generate xof0 xof0_len zero_bytes eq_refl) as (x & pk & G & _).
  destruct (C49_completeness xof0 xof0_len zero_bytes _ [] eq_refl G) as (v & p & EP & _ & _ & _ & b & EV & I).
  specialize (A xof0 xof0_len zero_bytes _ [] v p eq_refl G EP). rewrite EV in A. injection A as ->. exact (proj1 I eq_refl (xof0_neutral [])).
Qed.
(** There are keys, messages and accepted proofs; and the laws of C64 can be met. *)
Example C49_example : forall m, exists sk vrf proof, GenerateKey xof5 (Some zero_bytes) = Some sk /\ Prove xof5 sk m = Some (vrf, proof) /\ Verify xof5 (Public sk) m vrf proof = Some true.
Proof.
  intro m. destruct (C49_generate xof5 xof5_len zero_bytes eq_refl) as (x & pk & G & _).
  destruct (C49_completeness xof5 xof5_len zero_bytes _ m eq_refl G) as (v & p & EP & _ & _ & _ & b & EV & I).
  exists (zero_bytes ++ pk), v, p. split; [exact G|]. split; [exact EP|]. rewrite EV. f_equal. apply I, xof5_proper.
Qed.
Example C64_example : CryptoOk (CodeCrypto xof5 toy_shake toy_shake (fun sk m => toy_sig (toy_shake sk) m) (fun pk m s => beq s (toy_sig pk m))).
Proof.
  apply C64_code_satisfies_laws; [exact xof5_len|..].
  - exact (ok_shake_len _ ToyCrypto_ok).
  - exact (ok_sign_len _ ToyCrypto_ok).
  - exact (ok_sign _ ToyCrypto_ok).
Qed.
(** C63: a wrong point for the key B and the hash 2B *)
Example C63_example : smul L25519 (smul 2 pB) = pO /\ smul L25519 (smul 3 pB) = pO /\ smul 3 pB <> smul 1 (smul 2 pB).
Proof.
  split; [apply sub_smul, B_order|]. split; [apply sub_smul, B_order|]. intro E. apply B_not_O. rewrite <- smul_mul in E.
  change 3 with (1 * 2 + 1) in E. rewrite smul_add, smul_1 in E. apply (padd_cancel_l (smul (1 * 2) pB)). rewrite E. symmetry. apply padd_O_r.
Qed.

Print Assumptions C49_generate.
Print Assumptions C49_completeness.
Print Assumptions C49_unconditional_refuted.
Print Assumptions C62_verify_iff.
Print Assumptions C62_rejects.
Print Assumptions C63_honest_value.
Print Assumptions C63_soundness.
Print Assumptions C63_proof_malleable.
Print Assumptions C64_code_satisfies_laws.
