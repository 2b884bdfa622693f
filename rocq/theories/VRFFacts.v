(** The code of the VRF meets its specification. *)
From Coq Require Import List NArith ZArith Lia Bool Arith Znumtheory.
From Verif Require Import Base Extra25519 GoInt Field FieldSpec FieldFacts FieldBytes FieldPow EdConst Group NumTheory Fp EdGroup EdOrder Scalar ScalarFacts GroupFacts EncFacts MulFacts BaseFacts SmulFacts PointFacts EdCyclic VRF VRFSpec.
Import ListNotations.
Local Open Scope Z_scope.

(** ** Bytes *)
Lemma zbytes_length n z : length (zbytes n z) = n.
Proof. revert z. induction n as [|n IH]; intro z; [reflexivity|]. cbn [zbytes length]. now rewrite IH. Qed.
Lemma zbytes_value n : forall z, le_value (zbytes n z) = z mod 256 ^ Z.of_nat n.
Proof.
  induction n as [|n IH]; intro z; [cbn [zbytes le_value]; change (256 ^ Z.of_nat 0) with 1; now rewrite Z.mod_1_r|].
  cbn [zbytes le_value]. rewrite IH, byteZ_toByte, Nat2Z.inj_succ, Z.pow_succ_r by lia.
  rewrite Z.rem_mul_r by (try apply Z.pow_pos_nonneg; try apply Z.pow_nonzero; lia). reflexivity.
Qed.
Lemma encode_length P : length (encode P) = 32%nat. Proof. apply zbytes_length. Qed.
Lemma encode_value P : le_value (encode P) = enc P.
Proof. unfold encode. rewrite zbytes_value. apply Z.mod_small. change (256 ^ Z.of_nat 32) with (2 ^ 256). apply enc_range. Qed.
Lemma encode_unique s P : length s = 32%nat -> le_value s = enc P -> s = encode P.
Proof. intros L V. apply (enc_bytes_unique _ _ P); [exact L|apply encode_length|exact V|apply encode_value]. Qed.
Lemma encode_inj P Q : encode P = encode Q -> P = Q.
Proof. intro H. apply enc_inj. rewrite <- !encode_value. now rewrite H. Qed.
Lemma ext_bytes p P : ext_ok p P -> ext_ToBytes p = encode P.
Proof. intro H. destruct (ext_ToBytes_ok p P H) as [L V]. now apply encode_unique. Qed.
Lemma proj_bytes p P : proj_ok p P -> proj_ToBytes p = encode P.
Proof. intro H. destruct (proj_ToBytes_ok p P H) as [L V]. now apply encode_unique. Qed.
Lemma base_bytes : BaseBytes = encode pB.
Proof. apply ext_bytes. apply ext_base_ok. Qed.
Lemma one_bytes_encode : one_bytes = encode pO.
Proof. destruct one_bytes_ok as [L V]. apply encode_unique; [exact L|]. rewrite V. symmetry. apply enc_O. Qed.

(** ** The secret scalar *)
Lemma clamp_low b : byteZ (toByte (Z.land (byteZ b) 248)) mod 8 = 0.
Proof. destruct b; vm_compute; reflexivity. Qed.
Lemma clamp_high b : 64 <= byteZ (toByte (Z.lor (byteZ (toByte (Z.land (byteZ b) 127))) 64)) <= 127.
Proof. destruct b; vm_compute; split; discriminate. Qed.
Lemma update_last v (x : bytes) : length x = 32%nat -> update 31 v x = firstn 31 x ++ [v].
Proof. intro L. rewrite update_split by lia. f_equal. f_equal. apply skipn_all2. lia. Qed.
Lemma nth_last v (x : bytes) : length x = 32%nat -> nth 31 (firstn 31 x ++ [v]) x00 = v.
Proof. intro L. rewrite app_nth2; rewrite firstn_length; [replace (31 - Nat.min 31 (length x))%nat with 0%nat by lia; reflexivity|lia]. Qed.
Lemma clamp_ok x : length x = 32%nat -> length (clamp x) = 32%nat /\ 2 ^ 254 <= le_value (clamp x) < 2 ^ 255 /\ (8 | le_value (clamp x)).
Proof.
  intro L. destruct x as [|b x]; [discriminate L|]. unfold clamp. cbv zeta. change (nth 0 (b :: x) x00) with b.
  change (update 0 (toByte (Z.land (byteZ b) 248)) (b :: x)) with (toByte (Z.land (byteZ b) 248) :: x).
  set (b' := toByte (Z.land (byteZ b) 248)). pose proof (clamp_low b) as Lo. fold b' in Lo.
  assert (L1 : length (b' :: x) = 32%nat) by exact L.
  rewrite (update_last (toByte (Z.land (byteZ (nth 31 (b' :: x) x00)) 127)) (b' :: x)) by exact L1.
  rewrite (nth_last _ _ L1). set (c := nth 31 (b' :: x) x00).
  set (y := firstn 31 (b' :: x) ++ [toByte (Z.land (byteZ c) 127)]).
  assert (Ly : length y = 32%nat) by (unfold y; rewrite app_length, firstn_length, L1; reflexivity).
  rewrite (update_last _ y Ly). pose proof (clamp_high c) as Hi. set (d := toByte (Z.lor _ 64)) in *.
  assert (Fy : firstn 31 y = firstn 31 (b' :: x)).
  { unfold y. rewrite firstn_app, firstn_firstn. replace (31 - length (firstn 31 (b' :: x)))%nat with 0%nat by (rewrite firstn_length, L1; reflexivity).
    cbn [firstn]. now rewrite app_nil_r. }
  rewrite Fy. assert (Lf : length (firstn 31 (b' :: x)) = 31%nat) by (rewrite firstn_length, L1; reflexivity).
  split; [rewrite app_length, Lf; reflexivity|]. rewrite le_value_app, Lf. cbn [le_value]. change (256 ^ Z.of_nat 31) with (2 ^ 248).
  pose proof (le_value_bound (firstn 31 (b' :: x))) as Bd. rewrite Lf in Bd. change (2 ^ (8 * Z.of_nat 31)) with (2 ^ 248) in Bd.
  split; [lia|]. apply Z.divide_add_r; [|exists (2 ^ 245 * (byteZ d + 256 * 0)); lia].
  change (le_value (firstn 31 (b' :: x))) with (byteZ b' + 256 * le_value (firstn 30 x)). apply Z.divide_add_r; [apply Z.mod_divide; [lia|exact Lo]|exists (32 * le_value (firstn 30 x)); lia].
Qed.
(** it is not a multiple of L *)
Lemma clamped_nonzero x : 2 ^ 254 <= x < 2 ^ 255 -> (8 | x) -> ~ (L25519 | x).
Proof.
  intros R [k K] [j J].
  assert (E : L25519 = 2 ^ 252 + 27742317777372353535851937790883648493) by reflexivity.
  assert (B1 : 0 < 27742317777372353535851937790883648493 < 2 ^ 125) by (vm_compute; split; reflexivity).
  assert (j = 4 \/ j = 5 \/ j = 6 \/ j = 7) by (change (2 ^ 254) with (4 * 2 ^ 252) in R; change (2 ^ 255) with (8 * 2 ^ 252) in R; assert (2 ^ 125 < 2 ^ 252) by reflexivity; nia).
  assert (M : (j * L25519) mod 8 = 0) by (rewrite <- J, K; apply Z.mod_mul; lia).
  destruct H as [->|[->|[->| ->]]]; vm_compute in M; discriminate M.
Qed.

(** ** Subgroup arithmetic *)
Lemma sub_smul k P : smul L25519 P = pO -> smul L25519 (smul k P) = pO.
Proof. intro H. rewrite <- smul_mul, Z.mul_comm, smul_mul, H. apply smul_O. Qed.
Lemma sub_cong a b P : smul L25519 P = pO -> (a mod L25519 = b mod L25519) -> smul a P = smul b P.
Proof. intros H E. rewrite <- (smul_mod a _ _ H), <- (smul_mod b _ _ H). now rewrite E. Qed.
Lemma elligator_unique h E E' : elligator h E -> elligator h E' -> E = E'.
Proof.
  intros [Y X] [Y' X']. pose proof (onP E) as O. pose proof (onP E') as O'. rewrite Y' in O'. rewrite Y in O.
  destruct X as [X|X].
  - apply point_ext; [|congruence]. rewrite X in O |- *. destruct (same_y _ _ _ O O') as [H|H]; rewrite H; [reflexivity|].
    apply F_ext. rewrite Fopp_def, F0_def, !F2Z_Z2F. reflexivity.
  - destruct X' as [X'|X']; [|apply point_parity_inj; congruence].
    apply point_ext; [|congruence]. rewrite X' in O' |- *. destruct (same_y _ _ _ O' O) as [H|H]; rewrite H; [reflexivity|].
    apply F_ext. rewrite Fopp_def, F0_def, !F2Z_Z2F. reflexivity.
Qed.

Lemma skipn2 {A} a b : forall l : list A, skipn a (skipn b l) = skipn (b + a) l.
Proof. induction b as [|b IH]; intro l; [reflexivity|]. destruct l as [|x l]; [now destruct a|]. cbn [skipn plus]. apply IH. Qed.
Section Facts.
  Variable xof : bytes -> nat -> bytes.
  Hypothesis xof_len : forall m n, length (xof m n) = n.

  Lemma H1_unique m H H' : H1 xof m H -> H1 xof m H' -> H = H'.
  Proof. intros (E & A & ->) (E' & A' & ->). now rewrite (elligator_unique _ _ _ A A'). Qed.
  Lemma H1_sub m H : H1 xof m H -> smul L25519 H = pO.
  Proof. intros (E & _ & ->). rewrite <- smul_mul, Z.mul_comm. apply order_8L. Qed.
  Lemma hashToCurve_ok m : exists h H, hashToCurve xof m = Some h /\ ext_ok h H /\ H1 xof m H.
  Proof.
    destruct (HashToEdwards_ok FeZero (xof m 32) (xof_len m 32)) as (p & E & Hp & X & Y & Par).
    exists (GeDouble (GeDouble (GeDouble p))), (smul 8 E). unfold hashToCurve. rewrite Hp. split; [reflexivity|].
    split; [|exists E; split; [split; assumption|reflexivity]].
    replace (smul 8 E) with (padd (padd (padd E E) (padd E E)) (padd (padd E E) (padd E E))).
    - now apply GeDouble_ok, GeDouble_ok, GeDouble_ok.
    - rewrite <- !smul_2, <- !smul_mul. reflexivity.
  Qed.
  Lemma challenge_ok H P' hx A B m hB pk AB BB : hB = encode H -> AB = encode A -> BB = encode B -> pk = P' ->
    length (challenge xof hB pk hx AB BB m) = 32%nat /\ le_value (challenge xof hB pk hx AB BB m) = H2 xof H P' hx A B m.
  Proof.
    intros -> -> -> ->. unfold challenge, H2. rewrite base_bytes. apply ScReduce_ok. apply xof_len.
  Qed.
  Lemma zero_slide : dv (slide zero_bytes) = 0.
  Proof. destruct zero_bytes_ok as [L V]. rewrite slide_value; [exact V|exact L|rewrite V; reflexivity]. Qed.
  Lemma commitments_ok s t p i h P I H : length s = 32%nat -> le_value s < L25519 -> ext_ok p P -> ext_ok i I -> ext_ok h H ->
    commitments s t p i h = (encode (padd (smul (le_value s) P) (smul (dv (slide t)) pB)), encode (padd (smul (dv (slide t)) H) (smul (le_value s) I))).
  Proof.
    intros Ls Vs HP HI HH. unfold commitments. cbv zeta.
    assert (Vs' : le_value s < 2 ^ 255 + 15). { assert (L25519 < 2 ^ 255 + 15) by reflexivity. lia. }
    pose proof (DSM_digits s p P t HP) as A. rewrite (slide_value s Ls Vs') in A.
    pose proof (DSM_digits t h H zero_bytes HH) as B1. rewrite zero_slide, smul_0, padd_O_r in B1.
    pose proof (DSM_digits s i I zero_bytes HI) as B2. rewrite zero_slide, smul_0, padd_O_r, (slide_value s Ls Vs') in B2.
    pose proof (GeAdd_ok _ _ _ _ (proj_ToExtended_ok FeZero _ _ B1) (proj_ToExtended_ok FeZero _ _ B2)) as B3.
    rewrite (proj_bytes _ _ A), (ext_bytes _ _ B3). reflexivity.
  Qed.
  Lemma H2_range H pk hx A B m : 0 <= H2 xof H pk hx A B m < L25519.
  Proof. apply Z.mod_pos_bound. apply L_pos. Qed.

  (** ** Verification is the specification, with the proof's third part read as
      the number its signed digits sum up to *)
  Lemma split_proof (proof : bytes) : length proof = 96%nat ->
    proof = firstn 32 proof ++ firstn 32 (skipn 32 proof) ++ skipn 64 proof.
  Proof.
    intro L. rewrite <- (firstn_skipn 32 proof) at 1. f_equal. rewrite <- (firstn_skipn 32 (skipn 32 proof)) at 1. f_equal.
    rewrite skipn2. reflexivity.
  Qed.
  Lemma FBG_none s : length s = 32%nat -> FromBytesBaseGroup s = None -> forall P, s = encode P -> ~ prime_order P.
  Proof.
    intros L H P E [S N]. destruct (FromBytesBaseGroup_of s P L) as (p & Hp & _); [rewrite E; apply encode_value|exact S|exact N|]. rewrite H in Hp. discriminate Hp.
  Qed.
  Lemma bool_cases (b : bool) : b = true \/ b = false. Proof. destruct b; auto. Qed.
  Theorem Verify_spec pk m vrf s t hx : length s = 32%nat -> length t = 32%nat -> length hx = 32%nat ->
    exists b, Verify xof pk m vrf (s ++ t ++ hx) = Some b /\ (b = true <-> valid_proof xof pk m vrf (le_value s) (dv (slide t)) hx).
  Proof.
    intros Ls Lt Lx.
    assert (Lp : length (s ++ t ++ hx) = 96%nat) by (rewrite !app_length, Ls, Lt, Lx; reflexivity).
    assert (FA : forall a b : bytes, length a = 32%nat -> firstn 32 (a ++ b) = a).
    { intros a b La. rewrite firstn_app, La, Nat.sub_diag. rewrite firstn_O, app_nil_r. apply firstn_all2. lia. }
    assert (E1 : firstn 32 (s ++ t ++ hx) = s) by (apply FA; exact Ls).
    assert (K2 : skipn 32 (s ++ t ++ hx) = t ++ hx) by (rewrite skipn_app, Ls; rewrite skipn_all2 by lia; reflexivity).
    assert (E2 : firstn 32 (t ++ hx) = t) by (apply FA; exact Lt).
    assert (E3 : skipn 64 (s ++ t ++ hx) = hx).
    { replace 64%nat with (32 + 32)%nat by lia. rewrite <- skipn2, K2, skipn_app, Lt. rewrite skipn_all2 by lia. reflexivity. }
    unfold Verify. rewrite Lp, E1, K2, E2, E3. cbn [Nat.eqb negb orb]. cbv zeta.
    destruct (Nat.eqb_spec (length vrf) 32) as [Lv|Lv]; cbn [negb orb].
    2: { exists false. split; [reflexivity|]. split; [discriminate|]. intros (V & _). destruct Lv. rewrite V. apply xof_len. }
    destruct (Nat.eqb_spec (length pk) 32) as [Lk|Lk]; cbn [negb].
    2: { exists false. split; [reflexivity|]. split; [discriminate|]. intros (V & P & I & H & E & _). destruct Lk. rewrite E. apply encode_length. }
    destruct (bytes_eqb (xof (hx ++ m) 32) vrf) eqn:Ev; cbn [negb].
    2: { exists false. split; [reflexivity|]. split; [discriminate|]. intros (V & _). apply bytes_eqb_false in Ev. destruct Ev. symmetry. exact V. }
    apply bytes_eqb_ok in Ev.
    destruct (FromBytesBaseGroup pk) as [p|] eqn:Fp.
    2: { exists false. split; [reflexivity|]. split; [discriminate|]. intros (V & P & I & H & E & O & _). destruct (FBG_none pk Lk Fp P E O). }
    destruct (FromBytesBaseGroup hx) as [i|] eqn:Fi.
    2: { exists false. split; [reflexivity|]. split; [discriminate|]. intros (V & P & I & H & E & O & E' & O' & _). destruct (FBG_none hx Lx Fi I E' O'). }
    destruct (FromBytesBaseGroup_some pk p Lk Fp) as (P & XP & VP & SP & NP).
    destruct (FromBytesBaseGroup_some hx i Lx Fi) as (I & XI & VI & SI & NI).
    destruct (hashToCurve_ok m) as (h & H & Hh & XH & HH). rewrite Hh.
    pose proof (encode_unique pk P Lk VP) as Ek. pose proof (encode_unique hx I Lx VI) as Ex.
    destruct (commitments s t p i h) as [AB BB] eqn:EC.
    exists (bytes_eqb (challenge xof (ext_ToBytes h) pk hx AB BB m) s). split; [reflexivity|]. rewrite bytes_eqb_ok. split.
    - intro E.
      assert (R : le_value s < L25519).
      { rewrite <- E. unfold challenge. destruct (ScReduce_ok (xof (BaseBytes ++ ext_ToBytes h ++ pk ++ hx ++ AB ++ BB ++ m) 64) (xof_len _ _)) as [_ V].
        rewrite V. apply Z.mod_pos_bound, L_pos. }
      rewrite (commitments_ok s t p i h P I H Ls R XP XI XH) in EC. injection EC as EA EB.
      split; [symmetry; exact Ev|]. exists P, I, H. split; [exact Ek|]. split; [now split|]. split; [exact Ex|]. split; [now split|]. split; [exact HH|].
      destruct (challenge_ok H pk hx _ _ m (ext_ToBytes h) pk AB BB (ext_bytes _ _ XH) (eq_sym EA) (eq_sym EB) eq_refl) as [_ V].
      rewrite <- V. now rewrite E.
    - intros (_ & P' & I' & H' & Ek' & _ & Ex' & _ & HH' & Es).
      assert (P' = P) as -> by (apply encode_inj; congruence). assert (I' = I) as -> by (apply encode_inj; congruence).
      assert (H' = H) as -> by exact (H1_unique _ _ _ HH' HH).
      assert (R : le_value s < L25519) by (rewrite Es; apply H2_range).
      rewrite (commitments_ok s t p i h P I H Ls R XP XI XH) in EC. injection EC as EA EB.
      destruct (challenge_ok H pk hx _ _ m (ext_ToBytes h) pk AB BB (ext_bytes _ _ XH) (eq_sym EA) (eq_sym EB) eq_refl) as [Lc V].
      apply le_value_inj; [congruence|]. rewrite V. symmetry. exact Es.
  Qed.

  (** ** Key generation, [Compute], [Prove] *)
  Definition scalar_of (seed : bytes) : Z := le_value (fst (expandSecret xof seed)).
  Lemma secret_ok sk : length (fst (expandSecret xof sk)) = 32%nat /\ length (snd (expandSecret xof sk)) = 32%nat /\
    2 ^ 254 <= le_value (fst (expandSecret xof sk)) < 2 ^ 255 /\ (8 | le_value (fst (expandSecret xof sk))).
  Proof.
    unfold expandSecret. cbv zeta. cbn [fst snd]. pose proof (xof_len (firstn 32 sk) 64) as L.
    assert (L1 : length (firstn 32 (xof (firstn 32 sk) 64)) = 32%nat) by (rewrite firstn_length, L; reflexivity).
    destruct (clamp_ok _ L1) as (A & B & D). split; [exact A|]. split; [rewrite skipn_length, L; reflexivity|]. now split.
  Qed.
  Lemma GenerateKey_ok seed : length seed = 32%nat ->
    GenerateKey xof (Some seed) = Some (seed ++ encode (smul (scalar_of seed) pB)).
  Proof.
    intro L. unfold GenerateKey. cbv zeta. destruct (secret_ok seed) as (A & _ & B & _).
    rewrite (ext_bytes _ _ (GeScalarMultBase_ok _ A (proj2 B))). reflexivity.
  Qed.
  Lemma public_prime_order seed : prime_order (smul (scalar_of seed) pB).
  Proof.
    destruct (secret_ok seed) as (_ & _ & B & D). split; [apply sub_smul, B_order|].
    intro H. apply (sub_order pB _ B_order B_not_O) in H. revert H. apply clamped_nonzero; [exact B|exact D].
  Qed.
  Lemma firstn_seed (seed r : bytes) : length seed = 32%nat -> firstn 32 (seed ++ r) = seed.
  Proof. intro L. rewrite firstn_app, L, Nat.sub_diag, firstn_O, app_nil_r. apply firstn_all2. lia. Qed.
  Lemma skipn_seed (seed r : bytes) : length seed = 32%nat -> skipn 32 (seed ++ r) = r.
  Proof. intro L. rewrite skipn_app, L. rewrite skipn_all2 by lia. reflexivity. Qed.
  Lemma expand_seed seed r : length seed = 32%nat -> expandSecret xof (seed ++ r) = expandSecret xof seed.
  Proof. intro L. unfold expandSecret. rewrite firstn_seed by exact L. rewrite (firstn_all2 seed) by lia. reflexivity. Qed.
  Lemma Compute_ok sk m : exists H, H1 xof m H /\ Compute xof sk m = Some (xof (encode (smul (scalar_of sk) H) ++ m) 32).
  Proof.
    destruct (hashToCurve_ok m) as (h & H & Hh & XH & HH). exists H. split; [exact HH|]. unfold Compute. cbv zeta. rewrite Hh.
    destruct (secret_ok sk) as (A & _). rewrite (ext_bytes _ _ (GeScalarMult_ok _ _ _ A XH)). reflexivity.
  Qed.
  (** what [Prove] returns *)
  Definition prove_core (x r pk hB hxB grB hrB m : bytes) : bytes * bytes :=
    (xof (hxB ++ m) 32, challenge xof hB pk hxB grB hrB m ++ ScMulAdd x (ScNeg (challenge xof hB pk hxB grB hrB m)) r ++ hxB).
  Definition nonce (sk m : bytes) : bytes := ScReduce (xof (snd (expandSecret xof sk) ++ skipn 32 sk ++ m) 64).
  Lemma Prove_core sk m h : hashToCurve xof m = Some h ->
    Prove xof sk m = Some (prove_core (fst (expandSecret xof sk)) (nonce sk m) (skipn 32 sk) (ext_ToBytes h)
      (ext_ToBytes (GeScalarMult (fst (expandSecret xof sk)) h)) (ext_ToBytes (GeScalarMultBase (nonce sk m))) (ext_ToBytes (GeScalarMult (nonce sk m) h)) m).
  Proof. intro H. unfold Prove, prove_core, nonce. destruct (expandSecret xof sk) as [x skhr]. rewrite H. reflexivity. Qed.
  Lemma nonce_ok sk m : length (nonce sk m) = 32%nat /\ 0 <= le_value (nonce sk m) < L25519.
  Proof.
    unfold nonce. set (y := _ ++ _). destruct (ScReduce_ok (xof y 64) (xof_len _ _)) as [L V]. split; [exact L|]. rewrite V. apply Z.mod_pos_bound, L_pos.
  Qed.
  Lemma t_value x s r : length x = 32%nat -> length s = 32%nat -> length r = 32%nat -> 0 <= le_value s < L25519 ->
    length (ScMulAdd x (ScNeg s) r) = 32%nat /\ le_value (ScMulAdd x (ScNeg s) r) = (le_value r - le_value x * le_value s) mod L25519.
  Proof.
    intros A Ls Lr Rs. destruct (ScNeg_ok s Ls) as [Ln Vn]. destruct (ScMulAdd_ok x (ScNeg s) r A Ln Lr) as [Lt Vt].
    split; [exact Lt|]. assert (L255 : L25519 < 2 ^ 255) by reflexivity.
    rewrite Vt, Vn. rewrite (Z.mod_small (L25519 - le_value s)) by lia.
    replace (le_value x * (L25519 - le_value s) + le_value r) with ((le_value r - le_value x * le_value s) + le_value x * L25519) by ring.
    apply Z_mod_plus_full.
  Qed.
  Lemma prove_core_ok x r pk hB hxB grB hrB m H : length x = 32%nat -> length r = 32%nat ->
    hB = encode H -> grB = encode (smul (le_value r) pB) -> hrB = encode (smul (le_value r) H) ->
    exists s t, prove_core x r pk hB hxB grB hrB m = (xof (hxB ++ m) 32, s ++ t ++ hxB) /\ length s = 32%nat /\ length t = 32%nat /\
      le_value s = H2 xof H pk hxB (smul (le_value r) pB) (smul (le_value r) H) m /\ le_value t = (le_value r - le_value x * le_value s) mod L25519.
  Proof.
    intros Lx Lr E1 E2 E3. unfold prove_core.
    destruct (challenge_ok H pk hxB _ _ m hB pk grB hrB E1 E2 E3 eq_refl) as [Ls Vs].
    set (s := challenge xof hB pk hxB grB hrB m) in *. clearbody s.
    assert (Rs : 0 <= le_value s < L25519) by (rewrite Vs; apply H2_range).
    destruct (t_value x s r Lx Ls Lr Rs) as [Lt Vt]. set (t := ScMulAdd x (ScNeg s) r) in *. clearbody t.
    exists s, t. split; [reflexivity|]. split; [exact Ls|]. split; [exact Lt|]. split; [exact Vs|exact Vt].
  Qed.
  (** the same with the number [Prove] hides its secret with *)
  Lemma Prove_nonce sk m : let r := le_value (nonce sk m) in exists H s t, H1 xof m H /\ length s = 32%nat /\ length t = 32%nat /\
    Prove xof sk m = Some (xof (encode (smul (scalar_of sk) H) ++ m) 32, s ++ t ++ encode (smul (scalar_of sk) H)) /\
    le_value s = H2 xof H (skipn 32 sk) (encode (smul (scalar_of sk) H)) (smul r pB) (smul r H) m /\
    le_value t = (r - scalar_of sk * le_value s) mod L25519.
  Proof.
    intro r. destruct (hashToCurve_ok m) as (h & H & Hh & XH & HH). destruct (secret_ok sk) as (A & _). destruct (nonce_ok sk m) as [Lr Rr].
    assert (L255 : L25519 < 2 ^ 255) by reflexivity.
    pose proof (ext_bytes _ _ XH) as E1. pose proof (ext_bytes _ _ (GeScalarMult_ok _ _ _ A XH)) as E4.
    pose proof (ext_bytes _ _ (GeScalarMult_ok _ _ _ Lr XH)) as E3. pose proof (ext_bytes _ _ (GeScalarMultBase_ok _ Lr ltac:(lia))) as E2.
    destruct (prove_core_ok (fst (expandSecret xof sk)) (nonce sk m) (skipn 32 sk) _ (ext_ToBytes (GeScalarMult (fst (expandSecret xof sk)) h)) _ _ m H A Lr E1 E2 E3) as (s & t & E & Ls & Lt & Vs & Vt).
    rewrite E4 in Vs. exists H, s, t. split; [exact HH|]. split; [exact Ls|]. split; [exact Lt|].
    split; [|split; [exact Vs|exact Vt]]. rewrite (Prove_core sk m h Hh), E, E4. reflexivity.
  Qed.
  Lemma Prove_ok sk m : exists H s t r, H1 xof m H /\ length s = 32%nat /\ length t = 32%nat /\ 0 <= r < L25519 /\
    Prove xof sk m = Some (xof (encode (smul (scalar_of sk) H) ++ m) 32, s ++ t ++ encode (smul (scalar_of sk) H)) /\
    le_value s = H2 xof H (skipn 32 sk) (encode (smul (scalar_of sk) H)) (smul r pB) (smul r H) m /\
    le_value t = (r - scalar_of sk * le_value s) mod L25519.
  Proof.
    destruct (Prove_nonce sk m) as (H & s & t & HH & Ls & Lt & E & Vs & Vt). destruct (nonce_ok sk m) as [_ Rr].
    exists H, s, t, (le_value (nonce sk m)). split; [exact HH|]. split; [exact Ls|]. split; [exact Lt|]. split; [exact Rr|].
    split; [exact E|]. split; [exact Vs|exact Vt].
  Qed.
End Facts.
