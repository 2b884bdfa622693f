(** C90: the signatures of crypto/sign. *)
From Coq Require Import List NArith ZArith Znumtheory Lia Bool Arith.
From Verif Require Import Base Crypto Extra25519 GoInt Field FieldSpec Scalar ScalarFacts FieldBytes Fp EdGroup EdOrder EdConst Group GroupFacts EncFacts MulFacts BaseFacts SmulFacts PointFacts EdCyclic VRF VRFSpec VRFFacts Prop_VRF ElligatorFacts Prop_Nonce Ed25519.
Import ListNotations.
Local Open Scope Z_scope.

(** ** Specification *)
(** [denotes s P] (EncFacts.v): the 32 bytes [s] are read as the point [P]: the
    second coordinate modulo p and the parity of the first. *)
(** The number a hash stands for in the signature equation *)
Definition ed_hash (sha : bytes -> bytes) (R pk m : bytes) : Z := le_value (sha (R ++ pk ++ m)) mod L25519.
(** RFC 8032: [sig] is R, s with R = s B - H(R, pk, m) A *)
Definition ed_valid (sha : bytes -> bytes) (strict : bool) (pk m sig : bytes) : Prop :=
  exists A R S, denotes pk A /\ sig = R ++ S /\ length R = 32%nat /\ length S = 32%nat /\ le_value S < 2 ^ 253 /\ (strict = true -> le_value S < L25519) /\
    R = encode (padd (smul (le_value S) pB) (popp (smul (ed_hash sha R pk m) A))).
(** A point that 8 kills: no secret scalar stands behind it *)
Definition small_order (A : point) : Prop := smul 8 A = pO.

Lemma denotes_unique s P Q : denotes s P -> denotes s Q -> P = Q.
Proof.
  intros [Y X] [Y' X']. pose proof (onP P) as O. pose proof (onP Q) as O'. rewrite Y' in O'. rewrite Y in O.
  destruct X as [X|X].
  - apply point_ext; [|congruence]. rewrite X in O |- *. destruct (same_y _ _ _ O O') as [H|H]; rewrite H; [reflexivity|].
    apply F_ext. rewrite Fopp_def, F0_def, !F2Z_Z2F. reflexivity.
  - destruct X' as [X'|X']; [|apply point_parity_inj; congruence].
    apply point_ext; [|congruence]. rewrite X' in O' |- *. destruct (same_y _ _ _ O' O) as [H|H]; rewrite H; [reflexivity|].
    apply F_ext. rewrite Fopp_def, F0_def, !F2Z_Z2F. reflexivity.
Qed.
Lemma denotes_decodes T0 s P : length s = 32%nat -> denotes s P -> fst (FromBytes T0 s) = true /\ ext_ok (snd (FromBytes T0 s)) P.
Proof.
  intros L D. destruct (FromBytes_ok T0 s L) as [[A (Q & X & D')]|[A N]].
  - split; [exact A|]. rewrite (denotes_unique s P Q D D'). exact X.
  - exfalso. exact (N P (proj1 D)).
Qed.
Lemma ext_neg_ok p P : ext_ok p P -> ext_ok (mkExt (FeNeg (eX p)) (eY p) (eZ p) (FeNeg (eT p))) (popp P).
Proof.
  intros (z & Z0 & X & Y & Z & T). exists z. cbn [eX eY eZ eT px py popp mkP]. split; [exact Z0|].
  split; [|split; [exact Y|split; [exact Z|]]].
  - replace (- px P * z)%F with (- (px P * z))%F by ring. apply fr_neg; [exact X|lia].
  - replace (- px P * py P * z)%F with (- (px P * py P * z))%F by ring. apply fr_neg; [exact T|lia].
Qed.
Lemma low_bits b : Z.land (byteZ b) 224 = 0 <-> byteZ b < 32.
Proof. destruct b; vm_compute; split; (reflexivity || discriminate). Qed.

Section Facts.
  Variable sha : bytes -> bytes.
  Hypothesis sha_len : forall m, length (sha m) = 64%nat.

  Lemma top_bits S : length S = 32%nat -> (Z.land (byteZ (nth 31 S x00)) 224 = 0 <-> le_value S < 2 ^ 253).
  Proof.
    intro L. destruct (value31 S L) as [E B]. rewrite low_bits. rewrite E.
    change (2 ^ 253) with (2 ^ 248 * 32). pose proof (byteZ_bound (nth 31 S x00)). split; intro; nia.
  Qed.

  (** [Verify] is the equation of the RFC. *)
  Theorem C90_verify_iff : forall strict pk m sig, length pk = 32%nat ->
    (ed_verify sha strict pk m sig = true <-> ed_valid sha strict pk m sig).
  Proof.
    intros strict pk m sig Lk. unfold ed_verify.
    destruct (Nat.eqb_spec (length sig) 64) as [Ls|Ls]; cbn [negb orb].
    2: { split; [discriminate|]. intros (A & R & S & _ & -> & LR & LS & _). rewrite app_length, LR, LS in Ls. contradiction Ls. reflexivity. }
    assert (SP : sig = firstn 32 sig ++ skipn 32 sig) by (symmetry; apply firstn_skipn).
    assert (LR : length (firstn 32 sig) = 32%nat) by (rewrite firstn_length, Ls; reflexivity).
    assert (LS : length (skipn 32 sig) = 32%nat) by (rewrite skipn_length, Ls; reflexivity).
    assert (N63 : nth 63 sig x00 = nth 31 (skipn 32 sig) x00).
    { rewrite SP at 1. rewrite app_nth2 by (rewrite LR; lia). rewrite LR. reflexivity. }
    rewrite N63. set (R := firstn 32 sig) in *. set (S := skipn 32 sig) in *.
    assert (UNI : forall R' S', sig = R' ++ S' -> length R' = 32%nat -> R' = R /\ S' = S).
    { intros R' S' E L'. unfold R, S. rewrite E. rewrite firstn_seed, skipn_seed by exact L'. auto. }
    clearbody R S. destruct (Z.eqb_spec (Z.land (byteZ (nth 31 S x00)) 224) 0) as [T|T]; cbn [negb orb].
    2: { split; [discriminate|]. intros (A & R' & S' & _ & E & L' & _ & V & _). destruct (UNI R' S' E L') as [-> ->]. exfalso. apply T, top_bits; auto. }
    apply top_bits in T; [|exact LS].
    destruct (FromBytes_ok FeZero pk Lk) as [[OK (P & X & D)]|[OK N]].
    2: { destruct (FromBytes FeZero pk) as [ok A']. cbn [fst] in OK. subst ok. cbn [negb]. split; [discriminate|]. intros (A & R' & S' & D & _). exfalso. exact (N A (proj1 D)). }
    destruct (FromBytes FeZero pk) as [ok A']. cbn [fst snd] in OK, X. subst ok. cbn [negb].
    assert (K : strict && negb (le_value S <? L25519) = true <-> ~ (strict = true -> le_value S < L25519)).
    { destruct strict; cbn [andb]; [|split; [discriminate|intro H; exfalso; apply H; discriminate]].
      destruct (Z.ltb_spec (le_value S) L25519) as [Q|Q]; cbn [negb]; split; try discriminate; try reflexivity; intro H; [exfalso; apply H; auto|intro H'; specialize (H' eq_refl); lia]. }
    destruct (strict && negb (le_value S <? L25519)).
    { split; [discriminate|]. intros (A & R' & S' & _ & E & L' & _ & _ & V & _). destruct (UNI R' S' E L') as [-> ->]. exfalso. exact (proj1 K eq_refl V). }
    assert (V : strict = true -> le_value S < L25519).
    { intro E. destruct (Z_lt_ge_dec (le_value S) L25519) as [Q|Q]; [exact Q|]. exfalso. assert (false = true) as F; [|discriminate F]. apply K. intro H. specialize (H E). lia. }
    destruct (ScReduce_ok (sha (R ++ pk ++ m)) (sha_len _)) as [Lh Vh].
    assert (Rh : 0 <= le_value (ScReduce (sha (R ++ pk ++ m))) < L25519) by (rewrite Vh; apply Z.mod_pos_bound, L_pos).
    fold (ed_hash sha R pk m) in Vh. set (k := ScReduce (sha (R ++ pk ++ m))) in *. clearbody k.
    assert (L255 : L25519 < 2 ^ 255 + 15) by reflexivity. assert (P253 : 2 ^ 253 < 2 ^ 255 + 15) by reflexivity.
    rewrite (proj_bytes _ _ (DSM_digits k _ _ S (ext_neg_ok _ _ X))).
    rewrite (slide_value k Lh) by lia. rewrite (slide_value S LS) by lia. rewrite Vh, smul_popp, padd_comm.
    split.
    - intro E. apply bytes_eqb_ok in E. exists P, R, S. auto 8.
    - intros (A & R' & S' & D' & E & L' & _ & _ & _ & Q). destruct (UNI R' S' E L') as [-> ->]. apply bytes_eqb_ok.
      rewrite (denotes_unique pk P A D D'). exact Q.
  Qed.

  Lemma ed_scalar_ok seed : length (ed_scalar sha seed) = 32%nat /\ 2 ^ 254 <= le_value (ed_scalar sha seed) < 2 ^ 255 /\ (8 | le_value (ed_scalar sha seed)).
  Proof. apply clamp_ok. rewrite firstn_length, sha_len. reflexivity. Qed.
  Lemma ed_key_ok seed : ed_key sha seed = seed ++ encode (smul (le_value (ed_scalar sha seed)) pB).
  Proof. destruct (ed_scalar_ok seed) as (L & B & _). unfold ed_key. rewrite (ext_bytes _ _ (GeScalarMultBase_ok _ L (proj2 B))). reflexivity. Qed.
  Lemma denotes_encode P : denotes (encode P) P.
  Proof.
    destruct (FromBytes_ok FeZero (encode P) (encode_length P)) as [[A (Q & X & D)]|[A N]].
    - rewrite (enc_denotes (encode P) P Q (encode_value P) D) at 2. exact D.
    - exfalso. destruct (enc_decodes FeZero (encode P) P (encode_length P) (encode_value P)) as [T _]. rewrite A in T. discriminate T.
  Qed.

  (** What a generated key signs is accepted under its public key. *)
  Theorem C90_completeness : forall strict seed m, length seed = 32%nat ->
    length (ed_public (ed_key sha seed)) = 32%nat /\ length (ed_sign sha (ed_key sha seed) m) = 64%nat /\
    ed_verify sha strict (ed_public (ed_key sha seed)) m (ed_sign sha (ed_key sha seed) m) = true.
  Proof.
    intros strict seed m L. destruct (ed_scalar_ok seed) as (La & Ba & _). rewrite ed_key_ok.
    set (a := ed_scalar sha seed) in *. set (A := smul (le_value a) pB).
    unfold ed_public. rewrite (skipn_seed seed _ L). split; [apply encode_length|].
    unfold ed_sign. cbv zeta. rewrite (skipn_seed seed _ L), (firstn_seed seed _ L).
    destruct (ScReduce_ok (sha (ed_prefix sha seed ++ m)) (sha_len _)) as [Lr Vr].
    assert (Rr : 0 <= le_value (ScReduce (sha (ed_prefix sha seed ++ m))) < L25519) by (rewrite Vr; apply Z.mod_pos_bound, L_pos).
    set (r := ScReduce (sha (ed_prefix sha seed ++ m))) in *. clearbody r.
    assert (L255 : L25519 < 2 ^ 255) by reflexivity. assert (L253 : L25519 < 2 ^ 253) by reflexivity.
    rewrite (ext_bytes _ _ (GeScalarMultBase_ok r Lr ltac:(lia))). set (R := encode (smul (le_value r) pB)).
    destruct (ScReduce_ok (sha (R ++ encode A ++ m)) (sha_len _)) as [Lk Vk]. fold (ed_hash sha R (encode A) m) in Vk.
    set (k := ScReduce (sha (R ++ encode A ++ m))) in *. fold a. destruct (ScMulAdd_ok k a r Lk La Lr) as [Ls Vs].
    set (s := ScMulAdd k a r) in *. clearbody s k.
    assert (Rs : 0 <= le_value s < L25519) by (rewrite Vs; apply Z.mod_pos_bound, L_pos).
    split; [rewrite app_length, Ls; unfold R; rewrite encode_length; reflexivity|].
    apply C90_verify_iff; [apply encode_length|]. exists A, R, s. split; [apply denotes_encode|]. split; [reflexivity|].
    split; [apply encode_length|]. split; [exact Ls|]. split; [lia|]. split; [lia|].
    unfold R at 1. f_equal. rewrite Vs, smul_mod by apply B_order. rewrite smul_add. rewrite Vk. unfold A. rewrite smul_mul.
    rewrite (padd_comm (smul (ed_hash sha R (encode A) m) _)), <- padd_assoc, padd_opp_r, padd_O_r. reflexivity.
  Qed.
  (** Keys and signatures in full: the secret scalar x is the clamped first half
      of the hash of the seed, the nonce r the hash of its second half and the
      message, and s = r + H(R, A, m) x. *)
  Theorem C90_key_and_signature : forall seed m, length seed = 32%nat ->
    let x := clamped (firstn 32 (sha seed)) in
    let r := le_value (sha (skipn 32 (sha seed) ++ m)) mod L25519 in
    let A := encode (smul x pB) in let R := encode (smul r pB) in
    ed_key sha seed = seed ++ A /\ ed_public (ed_key sha seed) = A /\
    ed_sign sha (ed_key sha seed) m = R ++ zbytes 32 ((r + ed_hash sha R A m * x) mod L25519).
  Proof.
    intros seed m L x r A R. destruct (ed_scalar_ok seed) as (La & Ba & _).
    assert (X : le_value (ed_scalar sha seed) = x) by (apply clamp_value; rewrite firstn_length, sha_len; reflexivity).
    rewrite ed_key_ok, X. fold A. split; [reflexivity|]. unfold ed_public. split; [apply (skipn_seed seed A L)|].
    unfold ed_sign. cbv zeta. rewrite (skipn_seed seed A L), (firstn_seed seed A L).
    destruct (ScReduce_ok (sha (ed_prefix sha seed ++ m)) (sha_len _)) as [Lr Vr]. unfold ed_prefix in *. fold r in Vr.
    assert (Rr : 0 <= r < L25519) by (apply Z.mod_pos_bound, L_pos).
    set (rB := ScReduce (sha (skipn 32 (sha seed) ++ m))) in *. clearbody rB.
    assert (L255 : L25519 < 2 ^ 255) by reflexivity. assert (L256 : L25519 < 2 ^ 256) by reflexivity.
    rewrite (ext_bytes _ _ (GeScalarMultBase_ok rB Lr ltac:(lia))), Vr. fold R.
    destruct (ScReduce_ok (sha (R ++ A ++ m)) (sha_len _)) as [Lk Vk]. fold (ed_hash sha R A m) in Vk.
    set (k := ScReduce (sha (R ++ A ++ m))) in *. destruct (ScMulAdd_ok k (ed_scalar sha seed) rB Lk La Lr) as [Ls Vs].
    set (s := ScMulAdd k (ed_scalar sha seed) rB) in *. clearbody s k. f_equal.
    apply le_value_inj; [rewrite Ls, zbytes_length; reflexivity|]. rewrite Vs, Vk, X, Vr, zbytes_value, Z.add_comm.
    symmetry. apply Z.mod_small. change (256 ^ Z.of_nat 32) with (2 ^ 256). pose proof (Z.mod_pos_bound (r + ed_hash sha R A m * x) L25519 L_pos). lia.
  Qed.
  (** Two messages signed with one nonce: SHA-512, reduced, does not tell apart
      two different strings with the secret prefix in front. *)
  Theorem C90_no_reuse : forall seed m m', length seed = 32%nat -> m <> m' ->
    firstn 32 (ed_sign sha (ed_key sha seed) m) = firstn 32 (ed_sign sha (ed_key sha seed) m') ->
    let p := skipn 32 (sha seed) in p ++ m <> p ++ m' /\ le_value (sha (p ++ m)) mod L25519 = le_value (sha (p ++ m')) mod L25519.
  Proof.
    intros seed m m' L N E p. split; [intro Q; apply app_inv_head in Q; contradiction|].
    destruct (C90_key_and_signature seed m L) as (_ & _ & S). destruct (C90_key_and_signature seed m' L) as (_ & _ & S'). cbv zeta in S, S'. rewrite S, S' in E. clear S S'.
    rewrite !firstn_seed in E by apply encode_length. apply encode_inj in E. apply smul_eq_B in E. fold p in E.
    pose proof (Z.mod_pos_bound (le_value (sha (p ++ m))) L25519 L_pos). pose proof (Z.mod_pos_bound (le_value (sha (p ++ m'))) L25519 L_pos).
    set (a := le_value (sha (p ++ m)) mod L25519) in *. set (b := le_value (sha (p ++ m')) mod L25519) in *. clearbody a b.
    destruct E as [k K]. pose proof L_pos. assert (k = 0) by nia. lia.
  Qed.
  (** And then anybody can compute the secret scalar (modulo L) from the two signatures. *)
  Theorem C90_reuse_reveals : forall x r h h', ~ (L25519 | h - h') ->
    exists w, ((h - h') * w) mod L25519 = 1 /\
      (w * ((r + h * x) mod L25519 - (r + h' * x) mod L25519)) mod L25519 = x mod L25519.
  Proof.
    intros x r h h' N. destruct (mod_inv _ N) as [w W]. exists w. split; [exact W|].
    rewrite <- Zmult_mod_idemp_r, Zminus_mod_idemp_l, Zminus_mod_idemp_r, Zmult_mod_idemp_r.
    replace (w * (r + h * x - (r + h' * x))) with (((h - h') * w) * x) by ring.
    rewrite <- Zmult_mod_idemp_l, W. f_equal. lia.
  Qed.
  (** A generated key is not of small order. *)
  Theorem C90_generated_not_small : forall seed, length seed = 32%nat -> exists A, denotes (ed_public (ed_key sha seed)) A /\ ~ small_order A.
  Proof.
    intros seed L. destruct (ed_scalar_ok seed) as (La & Ba & Da). rewrite ed_key_ok. unfold ed_public. rewrite (skipn_seed seed _ L).
    exists (smul (le_value (ed_scalar sha seed)) pB). split; [apply denotes_encode|]. unfold small_order. rewrite <- smul_mul. intro H.
    apply (sub_order pB _ B_order B_not_O) in H. apply prime_mult in H; [|exact L_prime]. destruct H as [H|H]; [|exact (clamped_nonzero _ Ba Da H)].
    apply Z.divide_pos_le in H; [|lia]. assert (8 < L25519) by reflexivity. lia.
  Qed.
  (** One signature on two messages: their hashes, as numbers modulo the group
      order, coincide; or the key is of small order. *)
  Theorem C90_binding : forall strict strict' pk m m' sig A, length pk = 32%nat -> denotes pk A -> ~ small_order A ->
    ed_verify sha strict pk m sig = true -> ed_verify sha strict' pk m' sig = true ->
    ed_hash sha (firstn 32 sig) pk m = ed_hash sha (firstn 32 sig) pk m'.
  Proof.
    intros strict strict' pk m m' sig A L D NS V V'. apply C90_verify_iff in V; [|exact L]. apply C90_verify_iff in V'; [|exact L].
    destruct V as (A1 & R & S & D1 & -> & LR & LS & _ & _ & E). destruct V' as (A2 & R' & S' & D2 & E' & LR' & _ & _ & _ & Q).
    assert (R' = R /\ S' = S) as [-> ->].
    { split; [rewrite <- (firstn_seed R S LR), E', (firstn_seed R' S' LR'); reflexivity|rewrite <- (skipn_seed R S LR), E', (skipn_seed R' S' LR'); reflexivity]. }
    rewrite (firstn_seed R S LR). rewrite <- (denotes_unique _ _ _ D D1) in E. rewrite <- (denotes_unique _ _ _ D D2) in Q.
    rewrite E in Q at 1. apply encode_inj in Q. apply padd_cancel_l in Q.
    set (h := ed_hash sha R pk m) in *. set (h' := ed_hash sha R pk m') in *.
    assert (HH : smul (8 * (h - h')) A = pO).
    { rewrite smul_mul, smul_sub. apply (f_equal popp) in Q. rewrite !popp_popp in Q. rewrite Q, padd_opp_r. apply smul_O. }
    rewrite Z.mul_comm, smul_mul in HH.
    apply (sub_order (smul 8 A)) in HH; [|rewrite <- smul_mul, Z.mul_comm; apply order_8L|exact NS].
    assert (0 <= h < L25519) by (apply Z.mod_pos_bound, L_pos). assert (0 <= h' < L25519) by (apply Z.mod_pos_bound, L_pos).
    destruct HH as [k K]. pose proof L_pos. assert (k = 0) by nia. lia.
  Qed.
  (** With the check of s, nobody can change the second half of a signature. *)
  Theorem C90_strict_unique : forall pk m sig sig', length pk = 32%nat -> firstn 32 sig = firstn 32 sig' ->
    ed_verify sha true pk m sig = true -> ed_verify sha true pk m sig' = true -> sig = sig'.
  Proof.
    intros pk m sig sig' L F V V'. apply C90_verify_iff in V; [|exact L]. apply C90_verify_iff in V'; [|exact L].
    destruct V as (A1 & R & S & D1 & -> & LR & LS & _ & B & E). destruct V' as (A2 & R' & S' & D2 & -> & LR' & LS' & _ & B' & Q).
    rewrite (firstn_seed R S LR), (firstn_seed R' S' LR') in F. subst R'. rewrite <- (denotes_unique _ _ _ D1 D2) in Q. f_equal.
    rewrite E in Q at 1. apply encode_inj in Q. rewrite (padd_comm (smul (le_value S) pB)), (padd_comm (smul (le_value S') pB)) in Q. apply padd_cancel_l in Q.
    specialize (B eq_refl). specialize (B' eq_refl). pose proof (le_value_bound S). pose proof (le_value_bound S').
    assert (HH : smul (le_value S - le_value S') pB = pO) by (rewrite smul_sub, Q; apply padd_opp_r).
    apply (sub_order pB _ B_order B_not_O) in HH. destruct HH as [k K]. pose proof L_pos. assert (k = 0) by nia.
    apply le_value_inj; [congruence|lia].
  Qed.
  (** Without it, every signature with a small s has a twin. *)
  Theorem C90_malleable : forall pk m R S, length pk = 32%nat -> length R = 32%nat -> length S = 32%nat -> le_value S + L25519 < 2 ^ 253 ->
    ed_verify sha false pk m (R ++ S) = true ->
    ed_verify sha false pk m (R ++ zbytes 32 (le_value S + L25519)) = true /\ R ++ zbytes 32 (le_value S + L25519) <> R ++ S.
  Proof.
    intros pk m R S L LR LS B V. pose proof (le_value_bound S) as BS. pose proof L_pos as LP.
    assert (V' : le_value (zbytes 32 (le_value S + L25519)) = le_value S + L25519).
    { rewrite zbytes_value. apply Z.mod_small. change (256 ^ Z.of_nat 32) with (2 ^ 256). assert (2 ^ 253 < 2 ^ 256) by reflexivity. lia. }
    split.
    - apply C90_verify_iff in V; [|exact L]. apply C90_verify_iff; [exact L|].
      destruct V as (A & R' & S' & D & E & LR' & LS' & _ & _ & Q).
      assert (R' = R /\ S' = S) as [-> ->].
      { split; [rewrite <- (firstn_seed R S LR), E, (firstn_seed R' S' LR'); reflexivity|rewrite <- (skipn_seed R S LR), E, (skipn_seed R' S' LR'); reflexivity]. }
      exists A, R, (zbytes 32 (le_value S + L25519)). split; [exact D|]. split; [reflexivity|]. split; [exact LR|]. split; [apply zbytes_length|].
      split; [rewrite V'; exact B|]. split; [discriminate|]. rewrite V', smul_add, B_order, padd_O_r. exact Q.
    - intro E. apply app_inv_head in E. rewrite E in V'. lia.
  Qed.
  (** The key that is the neutral element: everything is signed by one signature. *)
  Theorem C90_neutral_key : forall strict m, ed_verify sha strict (encode pO) m (encode pO ++ zbytes 32 0) = true.
  Proof.
    intros strict m. apply C90_verify_iff; [apply encode_length|]. exists pO, (encode pO), (zbytes 32 0).
    assert (V : le_value (zbytes 32 0) = 0) by (rewrite zbytes_value; reflexivity).
    split; [apply denotes_encode|]. split; [reflexivity|]. split; [apply encode_length|]. split; [apply zbytes_length|]. rewrite V.
    split; [reflexivity|]. split; [reflexivity|]. rewrite smul_O, smul_0, popp_O, padd_O_r. reflexivity.
  Qed.
End Facts.
(** So a signature does not determine what was signed: not even for a hash
    function without any collision. *)
Theorem C90_unconditional_binding_refuted : forall strict, ~ (forall sha, (forall m, length (sha m) = 64%nat) ->
  forall pk m m' sig, length pk = 32%nat -> ed_verify sha strict pk m sig = true -> ed_verify sha strict pk m' sig = true ->
  ed_hash sha (firstn 32 sig) pk m = ed_hash sha (firstn 32 sig) pk m').
Proof.
  intros strict H. pose (sha := fun m : bytes => firstn 64 (rev m ++ repeat x00 64)).
  assert (SL : forall m, length (sha m) = 64%nat) by (intro m; unfold sha; rewrite firstn_length, app_length, repeat_length; lia).
  specialize (H sha SL (encode pO) [x01] [x02] (encode pO ++ zbytes 32 0) (encode_length pO) (C90_neutral_key sha SL strict _) (C90_neutral_key sha SL strict _)).
  rewrite <- one_bytes_encode in H. vm_compute in H. discriminate H.
Qed.

(** ** The laws *)
(** no line of its own in /repo: crypto/vrf and crypto/sign together; a private key is determined by its seed, cut or padded to 32 bytes *)
Definition EdCrypto (xof : bytes -> nat -> bytes) (hash sha : bytes -> bytes) (strict : bool) : Crypto :=
  CodeCrypto xof hash (fun sk => ed_public (ed_key sha (seed32 sk))) (fun sk m => ed_sign sha (ed_key sha (seed32 sk)) m)
    (fun pk m sig => Nat.eqb (length pk) 32 && ed_verify sha strict pk m sig).
Theorem C90_laws : forall xof hash sha strict, (forall m n, length (xof m n) = n) -> (forall x, length (hash x) = 32%nat) -> (forall m, length (sha m) = 64%nat) ->
  CryptoOk (EdCrypto xof hash sha strict).
Proof.
  intros xof hash sha strict XL HL SL. apply C64_code_satisfies_laws; [exact XL|exact HL| |].
  - intros sk m. apply (C90_completeness sha SL strict); apply seed32_length.
  - intros sk m. destruct (C90_completeness sha SL strict (seed32 sk) m (seed32_length sk)) as (A & _ & B). rewrite A, B. reflexivity.
Qed.
Print Assumptions C90_verify_iff.
Print Assumptions C90_completeness.
Print Assumptions C90_key_and_signature.
Print Assumptions C90_no_reuse.
Print Assumptions C90_reuse_reveals.
Print Assumptions C90_generated_not_small.
Print Assumptions C90_binding.
Print Assumptions C90_strict_unique.
Print Assumptions C90_malleable.
Print Assumptions C90_neutral_key.
Print Assumptions C90_unconditional_binding_refuted.
Print Assumptions C90_laws.

(** Cases that meet the hypotheses: a signature of a generated key under a hash
    function that does not tell two messages apart (C90_binding), a signature with
    a twin (C90_malleable). *)
Definition shac (m : bytes) : bytes := repeat x05 64.
Lemma shac_len m : length (shac m) = 64%nat. Proof. reflexivity. Qed.
Example C90_binding_example : forall seed, length seed = 32%nat -> let sk := ed_key shac seed in let sig := ed_sign shac sk [x01] in
  (exists A, denotes (ed_public sk) A /\ ~ small_order A) /\ ed_verify shac true (ed_public sk) [x01] sig = true /\ ed_verify shac true (ed_public sk) [x02] sig = true.
Proof.
  intros seed L sk sig. split; [exact (C90_generated_not_small shac shac_len seed L)|].
  split; [exact (proj2 (proj2 (C90_completeness shac shac_len true seed [x01] L)))|exact (proj2 (proj2 (C90_completeness shac shac_len true seed [x02] L)))].
Qed.
Example C90_twin : exists sig, ed_verify shac false (encode pO) [x01] sig = true /\ sig <> encode pO ++ zbytes 32 0 /\ firstn 32 sig = encode pO.
Proof.
  assert (V : le_value (zbytes 32 0) = 0) by (rewrite zbytes_value; reflexivity).
  destruct (C90_malleable shac shac_len (encode pO) [x01] (encode pO) (zbytes 32 0) (encode_length pO) (encode_length pO) (zbytes_length 32 0)) as [A B].
  - rewrite V. reflexivity.
  - exact (C90_neutral_key shac shac_len false [x01]).
  - eexists. split; [exact A|]. split; [exact B|]. apply firstn_seed, encode_length.
Qed.
