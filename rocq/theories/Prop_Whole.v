(** C88: the properties of clients, with the VRF as it is coded.

    Elsewhere the VRF is a record of functions with laws, and "two VRF outputs
    for one name" counts as evidence against the server.  Here the record is the
    code of crypto/vrf ([CodeCrypto]), and that evidence is turned into a failure
    of the hash functions. *)
From Coq Require Import List NArith ZArith Lia Bool Arith Znumtheory.
From Verif Require Import Base Utils Crypto Tree TreeSpec STR PAD PADSpec Protocol Directory DirSpec Auditor AudSpec AudFacts Client ClientSpec ClientFacts JointFacts Prop_Auditor Prop_Proof Prop_Client Equiv Prop_Equiv.
From Verif Require Import Extra25519 GoInt Field FieldSpec EdConst Group Fp EdGroup EdOrder Scalar FieldBytes GroupFacts EncFacts MulFacts BaseFacts SmulFacts PointFacts EdCyclic VRFSpec VRFFacts Prop_VRF.
From Verif Require VRF.
Import ListNotations.
Local Open Scope Z_scope.

(** ** Specification *)
(** A prover who has fixed the point I and the commitments A and A' can answer
    the challenge [c] for the key x B and the message point H.
    (no line of its own in /repo: it is what crypto/vrf/vrf.go:207-231 checks) *)
Definition answerable (x : Z) (H I A A' : point) (c : Z) : Prop :=
  exists t, padd (smul c (smul x pB)) (smul t pB) = A /\ padd (smul t H) (smul c I) = A'.
(** The point in the proof is not the one the key determines for [m], there is
    only one challenge out of L (more than 2^252) that its commitments answer,
    and the hash function returned that one. *)
Definition lucky (xof : bytes -> nat -> bytes) (pk m proof : bytes) : Prop :=
  exists x H I A A', pk = encode (smul x pB) /\ H1 xof m H /\ skipn 64 proof = encode I /\ I <> smul x H /\
    let c := H2 xof H pk (encode I) A A' m in
    le_value (firstn 32 proof) = c /\ answerable x H I A A' c /\
    forall c', 0 <= c' < L25519 -> answerable x H I A A' c' -> c' = c.

(** ** The coded VRF *)
Lemma one_challenge x H I A A' c c' : smul L25519 H = pO -> smul L25519 I = pO -> I <> smul x H ->
  0 <= c < L25519 -> 0 <= c' < L25519 -> answerable x H I A A' c -> answerable x H I A A' c' -> c' = c.
Proof.
  intros SH SI NI R R' (t & E1 & E2) (t' & E1' & E2').
  destruct (sub_base H SH) as (h & _ & EH). destruct (sub_base I SI) as (i & _ & EI).
  assert (ND : ~ (L25519 | i - x * h)).
  { intros [k K]. apply NI. rewrite EI, EH, <- smul_mul. apply (sub_cong _ _ _ B_order). replace i with (x * h + k * L25519) by lia. apply Z_mod_plus_full. }
  assert (HA : forall s t, padd (smul s (smul x pB)) (smul t pB) = smul (s * x + t) pB) by (intros; rewrite <- smul_mul, <- smul_add; reflexivity).
  assert (HA' : forall s t, padd (smul t H) (smul s I) = smul (t * h + s * i) pB) by (intros; rewrite EH, EI, <- !smul_mul, <- smul_add; reflexivity).
  rewrite HA in E1, E1'. rewrite HA' in E2, E2'. rewrite <- E1' in E1. rewrite <- E2' in E2.
  assert (D1 : (L25519 | (c * x + t) - (c' * x + t'))) by (apply (sub_order pB _ B_order B_not_O); rewrite smul_sub, E1; apply padd_opp_r).
  assert (D2 : (L25519 | (t * h + c * i) - (t' * h + c' * i))) by (apply (sub_order pB _ B_order B_not_O); rewrite smul_sub, E2; apply padd_opp_r).
  destruct D1 as [k1 K1]. destruct D2 as [k2 K2].
  assert (D : (L25519 | (c - c') * (i - x * h))).
  { exists (k2 - k1 * h). assert (T : t = t' + k1 * L25519 - (c - c') * x) by lia. rewrite T in K2.
    transitivity ((t' + k1 * L25519 - (c - c') * x) * h + c * i - (t' * h + c' * i) - k1 * h * L25519); [ring|]. rewrite K2. ring. }
  apply prime_mult in D; [|exact L_prime]. destruct D as [[k K]|D]; [|contradiction]. pose proof L_pos. assert (k = 0) by nia. subst k. lia.
Qed.
(** For every key, message and accepted proof: the value is the one the key
    determines, or the proof had luck. *)
Lemma accepted_value xof (XL : forall m n, length (xof m n) = n) pk m vrf proof : VRF.Verify xof pk m vrf proof = Some true ->
  exists x H, pk = encode (smul x pB) /\ H1 xof m H /\ (vrf = xof (encode (smul x H) ++ m) 32%nat \/ lucky xof pk m proof).
Proof.
  intro V. destruct (C62_verify_iff xof XL pk m vrf proof) as (b & E & IV). rewrite V in E. injection E as <-.
  destruct (proj1 IV eq_refl) as (s & t & hx & EP & Ls & Lt & Lx & W). clear IV V.
  set (tv := if (le_value t <? 2 ^ 255 + 15)%Z then le_value t else dv (slide t)) in W. clearbody tv.
  destruct W as (Ev & P & I & H & Ek & [SP NP] & Ex & [SI NI] & HH & Es).
  destruct (sub_base P SP) as (x & _ & Px). exists x, H. rewrite <- Px. split; [exact Ek|]. split; [exact HH|].
  destruct (point_dec I (smul x H)) as [D|D]; [left; rewrite Ev, Ex, D; reflexivity|right].
  assert (K : skipn 64 proof = hx).
  { rewrite EP, app_assoc, skipn_app. rewrite skipn_all2 by (rewrite app_length, Ls, Lt; reflexivity). rewrite app_length, Ls, Lt. reflexivity. }
  assert (K' : firstn 32 proof = s).
  { rewrite EP, firstn_app, Ls, Nat.sub_diag, firstn_all2 by (rewrite Ls; constructor). apply app_nil_r. }
  exists x, H, I, (padd (smul (le_value s) P) (smul tv pB)), (padd (smul tv H) (smul (le_value s) I)).
  rewrite <- Px. split; [exact Ek|]. split; [exact HH|]. rewrite K. split; [exact Ex|]. split; [exact D|]. cbv zeta.
  rewrite <- Ex, <- Es, K'. split; [reflexivity|].
  assert (AN : answerable x H I (padd (smul (le_value s) P) (smul tv pB)) (padd (smul tv H) (smul (le_value s) I)) (le_value s)).
  { exists tv. rewrite <- Px. split; reflexivity. }
  split; [exact AN|]. intros c' R' AN'.
  assert (R : 0 <= le_value s < L25519) by (rewrite Es; apply H2_range).
  exact (one_challenge x H I _ _ _ _ (H1_sub xof m H HH) SI D R R' AN AN').
Qed.
(** What a client accepts for a name under the key of an honest directory is what
    that directory computes for it. *)
Theorem C88_accepted_value : forall xof, (forall m n, length (xof m n) = n) -> forall seed sk m vrf proof,
  length seed = 32%nat -> VRF.GenerateKey xof (Some seed) = Some sk -> VRF.Verify xof (VRF.Public sk) m vrf proof = Some true ->
  VRF.Compute xof sk m = Some vrf \/ lucky xof (VRF.Public sk) m proof.
Proof.
  intros xof XL seed sk m vrf proof L G V. destruct (accepted_value xof XL _ _ _ _ V) as (x & H & Ek & HH & [Ev|Y]); [left|right; exact Y].
  rewrite (GenerateKey_ok xof XL seed L) in G. injection G as <-.
  unfold VRF.Public in Ek. rewrite (skipn_seed seed _ L) in Ek. apply encode_inj in Ek.
  destruct (Compute_ok xof XL (seed ++ encode (smul (scalar_of xof seed) pB)) m) as (H' & HH' & ->). rewrite (H1_unique xof m H' H HH' HH).
  assert (E : scalar_of xof (seed ++ encode (smul (scalar_of xof seed) pB)) = scalar_of xof seed) by (unfold scalar_of; rewrite expand_seed by exact L; reflexivity).
  rewrite E, Ev. do 4 f_equal.
  destruct (sub_base H (H1_sub xof m H HH)) as (h & _ & ->). rewrite <- !smul_mul.
  rewrite (Z.mul_comm _ h), (Z.mul_comm x h), !smul_mul, Ek. reflexivity.
Qed.
(** One key, one message: one value, whoever made the key. *)
Theorem C88_one_value : forall xof, (forall m n, length (xof m n) = n) -> forall pk m v1 p1 v2 p2,
  VRF.Verify xof pk m v1 p1 = Some true -> VRF.Verify xof pk m v2 p2 = Some true ->
  v1 = v2 \/ lucky xof pk m p1 \/ lucky xof pk m p2.
Proof.
  intros xof XL pk m v1 p1 v2 p2 V1 V2.
  destruct (accepted_value xof XL _ _ _ _ V1) as (x1 & H1' & E1 & HH1 & [D1|]); [|tauto].
  destruct (accepted_value xof XL _ _ _ _ V2) as (x2 & H2' & E2 & HH2 & [D2|]); [|tauto]. left.
  rewrite (H1_unique xof m H2' H1' HH2 HH1) in D2. rewrite D1, D2. do 3 f_equal.
  rewrite E1 in E2. apply encode_inj in E2.
  destruct (sub_base H1' (H1_sub xof m H1' HH1)) as (h & _ & ->). rewrite <- !smul_mul.
  rewrite (Z.mul_comm x1 h), (Z.mul_comm x2 h), !smul_mul, E2. reflexivity.
Qed.

(** ** Clients *)
Section Whole.
  Variables (xof : bytes -> nat -> bytes) (hash : bytes -> bytes) (spub : bytes -> bytes) (ssign : bytes -> bytes -> bytes) (sver : bytes -> bytes -> bytes -> bool).
  Hypothesis XL : forall m n, length (xof m n) = n.
  Hypothesis HL : forall x, length (hash x) = 32%nat.
  Hypothesis SL : forall sk m, length (ssign sk m) = 64%nat.
  Hypothesis SV : forall sk m, sver (spub sk) m (ssign sk m) = true.
  Local Definition CC : Crypto := CodeCrypto xof hash spub ssign sver.
  Local Existing Instance CC.

  Lemma CC_ok : CryptoOk CC.
  Proof. exact (proj1 (C64_code_satisfies_laws xof hash spub ssign sver XL HL SL SV)). Qed.
  Lemma CC_verify pk m i p : @vrf_verify CC pk m i p = true -> VRF.Verify xof pk m i p = Some true.
  Proof. cbn [vrf_verify CC CodeCrypto]. destruct (VRF.Verify xof pk m i p) as [[]|]; intro E; [reflexivity|discriminate E|discriminate E]. Qed.
  Lemma CC_two vpk m i1 p1 i2 p2 : @vrf_verify CC vpk m i1 p1 = true -> @vrf_verify CC vpk m i2 p2 = true -> i1 <> i2 ->
    lucky xof vpk m p1 \/ lucky xof vpk m p2.
  Proof. intros V1 V2 N. destruct (C88_one_value xof XL vpk m i1 p1 i2 p2 (CC_verify _ _ _ _ V1) (CC_verify _ _ _ _ V2)) as [E|L]; [contradiction|exact L]. Qed.

  (** The condition the theorems about honest directories put on names: the
      indices differ, and no name is hashed to the neutral element. *)
  Theorem C88_good_names : forall vk names,
    @vrf_good CC vk names <-> @vrf_spread CC 248 vk names /\ forall n, In n names -> ~ H1 xof n pO.
  Proof.
    intros vk names. pose proof (proj2 (C64_code_satisfies_laws xof hash spub ssign sver XL HL SL SV)) as Q. cbv zeta in Q.
    unfold vrf_good. split; intros (A & B); (split; [exact A|]); intros n I; [exact (proj1 (Q vk n) (B n I))|exact (proj2 (Q vk n) (B n I))].
  Qed.
  (** Proofs have 96 bytes, as C66 asks for. *)
  Theorem C88_proof_length : forall sk m, length (snd (@vrf_prove CC sk m)) = 96%nat.
  Proof.
    intros sk m. cbn [vrf_prove CC CodeCrypto].
    assert (K : VRF.GenerateKey xof (Some (seed32 sk)) = Some (key_of xof sk)).
    { unfold key_of. rewrite (GenerateKey_ok xof XL (seed32 sk) (seed32_length sk)). reflexivity. }
    destruct (C49_completeness xof XL _ _ m (seed32_length sk) K) as (v & p & -> & _ & _ & L & _). exact L.
  Qed.
  (** Two clients that hold the same STR and accepted two different keys for one
      name hold a hash collision or a proof that had luck. *)
  Theorem C88_conflict_exposes : forall cc1 cc2 t1 t2 m1 m2 uname k1 k2 cc1' cc2' ap1 ap2 s1 s2 l1 l2,
    cc_useTBs cc1 = true -> cc_useTBs cc2 = true ->
    HandleResponse cc1 t1 m1 uname k1 = Ok (cc1', None) -> HandleResponse cc2 t2 m2 uname k2 = Ok (cc2', None) ->
    answer m1 ap1 s1 -> answer m2 ap2 s2 -> au_str (cc_aud cc1') = au_str (cc_aud cc2') ->
    ap_leaf ap1 = Some l1 -> ap_leaf ap2 = Some l2 ->
    ProofType ap1 = Ok ProofOfInclusion -> ProofType ap2 = Ok ProofOfInclusion -> binding_shape ap1 -> binding_shape ap2 ->
    obytes (pn_value l1) = obytes (pn_value l2) \/
    (exists vpk, lucky xof vpk uname (ap_vrf ap1) \/ lucky xof vpk uname (ap_vrf ap2)) \/
    collision_between (verify_inputs ap1 uname (obytes (pn_value l1))) (verify_inputs ap2 uname (obytes (pn_value l2))).
  Proof.
    intros cc1 cc2 t1 t2 m1 m2 uname k1 k2 cc1' cc2' ap1 ap2 s1 s2 l1 l2 U1 U2 R1 R2 A1 A2 ES L1 L2 P1 P2 B1 B2.
    destruct (C33_conflict_exposes CC CC_ok cc1 cc2 t1 t2 m1 m2 uname k1 k2 cc1' cc2' ap1 ap2 s1 s2 l1 l2 U1 U2 R1 R2 A1 A2 ES L1 L2 P1 P2 B1 B2)
      as [E|[(vpk & V1 & V2 & N)|K]]; [left; exact E| |right; right; exact K].
    right; left. exists vpk. exact (CC_two _ _ _ _ _ _ V1 V2 N).
  Qed.
  (** The same when one shows a key and the other its absence. *)
  Theorem C88_presence_vs_absence_exposes : forall cc1 cc2 t1 t2 m1 m2 uname k1 k2 cc1' cc2' ap1 ap2 s1 s2 l1 l2,
    cc_useTBs cc1 = true -> cc_useTBs cc2 = true ->
    HandleResponse cc1 t1 m1 uname k1 = Ok (cc1', None) -> HandleResponse cc2 t2 m2 uname k2 = Ok (cc2', None) ->
    answer m1 ap1 s1 -> answer m2 ap2 s2 -> au_str (cc_aud cc1') = au_str (cc_aud cc2') ->
    ap_leaf ap1 = Some l1 -> ap_leaf ap2 = Some l2 ->
    ProofType ap1 = Ok ProofOfInclusion -> ProofType ap2 = Ok ProofOfAbsence -> pruned_ok ap1 -> pruned_ok ap2 ->
    pn_empty l1 = false -> length (ap_nonce ap1) = 32%nat -> absence_shape ap2 l2 ->
    (exists vpk, lucky xof vpk uname (ap_vrf ap1) \/ lucky xof vpk uname (ap_vrf ap2)) \/
    collision_between (verify_inputs ap1 uname (obytes (pn_value l1))) (verify_inputs ap2 uname (obytes (pn_value l2))).
  Proof.
    intros cc1 cc2 t1 t2 m1 m2 uname k1 k2 cc1' cc2' ap1 ap2 s1 s2 l1 l2 U1 U2 R1 R2 A1 A2 ES L1 L2 P1 P2 B1 B2 E1 N1 S2.
    destruct (C33_presence_vs_absence_exposes CC CC_ok cc1 cc2 t1 t2 m1 m2 uname k1 k2 cc1' cc2' ap1 ap2 s1 s2 l1 l2 U1 U2 R1 R2 A1 A2 ES L1 L2 P1 P2 B1 B2 E1 N1 S2)
      as [(vpk & V1 & V2 & N)|K]; [left; exists vpk; exact (CC_two _ _ _ _ _ _ V1 V2 N)|right; exact K].
  Qed.
  (** Two users who check with the same audit log (C83): the evidence they hold
      is a hash collision, a signature under two byte strings, or a proof that had luck. *)
  Theorem C88_no_equivocation : forall pk s0 ops ops' log log' rec ccA lA ccA' ccB lB ccB' uname apA apB sA sB vA vB,
    epoch_of s0 = Some 0%N ->
    log_run [] ops = Ok log -> log_run log ops' = Ok log' -> Forall good_init (ops ++ ops') ->
    (N.of_nat (received (ops ++ ops')) < 2 ^ 64)%N ->
    (forall addr pk' s snaps, In (LInit addr pk' (Some s :: snaps)) (ops ++ ops') -> Digest [sig_of s] = Digest [sig_of s0] -> pk' = pk) ->
    serves log' (Digest [sig_of s0]) rec -> (N.of_nat (length rec) < 2 ^ 64)%N -> Forall hash_sized (tl rec) ->
    checked pk s0 log ccA lA ccA' -> checked pk s0 log' ccB lB ccB' ->
    accepted ccA lA uname apA sA -> accepted ccB lB uname apB sB -> epoch_of sA = epoch_of sB ->
    says apA vA -> says apB vB ->
    let held := s0 :: seen lA ++ seen lB ++ rec in
    vA = vB \/
    collision_between (map sig_of held) (map sig_of held) \/
    (exists x y bx by_, In x held /\ In y held /\ sig_of x = sig_of y /\ signed_by pk x /\ signed_by pk y /\
       DirSTR_Serialize x = Ok bx /\ DirSTR_Serialize y = Ok by_ /\ bx <> by_) \/
    (exists vpk, lucky xof vpk uname (ap_vrf apA) \/ lucky xof vpk uname (ap_vrf apB)) \/
    collision_between (verify_inputs apA uname (leaf_value apA)) (verify_inputs apB uname (leaf_value apB)).
  Proof.
    intros pk s0 ops ops' log log' rec ccA lA ccA' ccB lB ccB' uname apA apB sA sB vA vB E0 R R' G B K SVs LR SZ CA CB AA AB EE TA TB held.
    destruct (C83_no_equivocation CC CC_ok (C83_code_keys_sized xof hash spub ssign sver) pk s0 ops ops' log log' rec ccA lA ccA' ccB lB ccB' uname apA apB sA sB vA vB
      E0 R R' G B K SVs LR SZ CA CB AA AB EE TA TB) as [E|[E|[E|[(vpk & V1 & V2 & N)|E]]]].
    - left; exact E.
    - right; left; exact E.
    - right; right; left; exact E.
    - right; right; right; left. exists vpk. exact (CC_two _ _ _ _ _ _ V1 V2 N).
    - right; right; right; right; exact E.
  Qed.
End Whole.

(** ** Instances *)
(** The hypotheses of C88_no_equivocation are met with the coded VRF: two honest
    users and an honest log. *)
Definition EC : Crypto := CodeCrypto xof5 toy_shake toy_shake (fun sk m => toy_sig (toy_shake sk) m) (fun pk m s => beq s (toy_sig pk m)).
Example C88_example : forall sk vsk uname k, exists log log' ccA ccA' ccB ccB',
  @epoch_of (@ho_s0 EC sk vsk uname k) = Some 0%N /\
  @log_run EC [] (@ho_ops EC sk vsk uname k) = Ok log /\ @log_run EC log (@ho_ops' EC sk vsk uname k) = Ok log' /\
  @checked EC (@sign_pub EC sk) (@ho_s0 EC sk vsk uname k) log ccA (@ho_userA EC sk vsk uname k) ccA' /\
  @checked EC (@sign_pub EC sk) (@ho_s0 EC sk vsk uname k) log' ccB (@ho_userB EC sk vsk uname k) ccB' /\
  @accepted EC ccA (@ho_userA EC sk vsk uname k) uname (@one_path EC vsk uname k) (@ho_s1 EC sk vsk uname k) /\
  @accepted EC ccB (@ho_userB EC sk vsk uname k) uname (@one_path EC vsk uname k) (@ho_s1 EC sk vsk uname k).
Proof.
  intros sk vsk uname k. 
  destruct (C64_code_satisfies_laws xof5 toy_shake toy_shake (fun sk m => toy_sig (toy_shake sk) m) (fun pk m s => beq s (toy_sig pk m))
    xof5_len (ok_shake_len _ ToyCrypto_ok) (ok_sign_len _ ToyCrypto_ok) (ok_sign _ ToyCrypto_ok)) as (OK & W).
  destruct (@C83_example EC OK sk vsk uname k (proj2 (W vsk uname) (xof5_proper uname)))
    as (log & log' & ccA & ccA' & ccB & ccB' & E0 & R & R' & _ & _ & _ & _ & _ & _ & CA & CB & AA & AB & _).
  exists log, log', ccA, ccA', ccB, ccB'. split; [exact E0|]. split; [exact R|]. split; [exact R'|]. split; [exact CA|]. split; [exact CB|]. split; [exact AA|exact AB].
Qed.

(** A hash function that always returns the same challenge, and the proof's point
    as the value. *)
Definition xof7 (m : bytes) (n : nat) : bytes :=
  if Nat.eqb n 32 then (if (length m <? 32)%nat then xof5 m 32%nat else firstn 32 m) else xof5 m n.
Lemma xof7_len m n : length (xof7 m n) = n.
Proof.
  unfold xof7. destruct (Nat.eqb_spec n 32) as [->|]; [|apply xof5_len]. destruct (Nat.ltb_spec (length m) 32); [apply xof5_len|].
  apply firstn_length_le. assumption.
Qed.
(** Luck is needed and possible: without a condition on the hash functions a key
    has two values for one message. *)
Theorem C88_unconditional_refuted : ~ (forall xof, (forall m n, length (xof m n) = n) -> forall pk m v1 p1 v2 p2,
  VRF.Verify xof pk m v1 p1 = Some true -> VRF.Verify xof pk m v2 p2 = Some true -> v1 = v2).
Proof.
  intro A.
  destruct (Compute_ok xof7 xof7_len [] []) as (H & HH & _).
  assert (HN : H <> pO).
  { intros ->. apply (xof5_proper []). destruct HH as (E & X & Q). exists E. split; [exact X|exact Q]. }
  pose proof (H1_sub xof7 [] H HH) as SH.
  assert (NL : forall k, 0 < k < L25519 -> smul k H <> pO).
  { intros k R Z0. apply (sub_order H _ SH HN) in Z0. apply Z.divide_pos_le in Z0; lia. }
  assert (VP : forall k, 0 < k < L25519 -> VRF.Verify xof7 (encode pB) [] (encode (smul k H)) (zbytes 32 5 ++ zbytes 32 0 ++ encode (smul k H)) = Some true).
  { intros k R. destruct (C62_verify_iff xof7 xof7_len (encode pB) [] (encode (smul k H)) (zbytes 32 5 ++ zbytes 32 0 ++ encode (smul k H))) as (b & E & IV).
    rewrite E. f_equal. apply IV. exists (zbytes 32 5), (zbytes 32 0), (encode (smul k H)).
    split; [reflexivity|]. split; [apply zbytes_length|]. split; [apply zbytes_length|]. split; [apply encode_length|].
    split.
    - rewrite app_nil_r. unfold xof7. rewrite Nat.eqb_refl, encode_length. rewrite Nat.ltb_irrefl. symmetry. apply firstn_all2. rewrite encode_length. constructor.
    - exists pB, (smul k H), H. split; [reflexivity|]. split; [split; [exact B_order|exact B_not_O]|]. split; [reflexivity|].
      split; [split; [apply sub_smul; exact SH|exact (NL k R)]|]. split; [exact HH|].
      unfold H2. set (q := encode pB ++ _). clearbody q. 
      assert (Q : le_value (xof7 q 64%nat) mod L25519 = 5) by (vm_compute; reflexivity). rewrite Q. vm_compute. reflexivity. }
  specialize (A xof7 xof7_len _ _ _ _ _ _ (VP 1 ltac:(split; reflexivity)) (VP 2 ltac:(split; reflexivity))).
  apply encode_inj in A. rewrite smul_1 in A. apply HN. change 2 with (1 + 1) in A. rewrite smul_add, smul_1 in A.
  apply (padd_cancel_l H). rewrite <- A. symmetry. apply padd_O_r.
Qed.

Print Assumptions C88_accepted_value.
Print Assumptions C88_one_value.
Print Assumptions C88_unconditional_refuted.
Print Assumptions C88_good_names.
Print Assumptions C88_proof_length.
Print Assumptions C88_conflict_exposes.
Print Assumptions C88_presence_vs_absence_exposes.
Print Assumptions C88_no_equivocation.
