(** C92: the model with every cryptographic function written out.

    Up to here the hash functions were parameters: the theorems hold for all
    functions with outputs of the right length.  Here they are SHAKE128, SHAKE256
    and SHA-512 themselves (Hashes.v), so nothing is left open, and the model can be
    run on the inputs of the repository's own test with a literal expected value
    (protocol/auditor/common_test.go:12-42). *)
From Coq Require Import List NArith ZArith Lia Bool Arith.
From Verif Require Import Base Utils Crypto Tree STR Auditor Extra25519 GoInt Field FieldSpec Scalar FastZ NumTheory Fp EdGroup EdOrder EdConst Group EncFacts
  VRF VRFSpec VRFFacts Prop_VRF Prop_Nonce Ed25519 Prop_Ed25519 PointFacts BaseMult Hashes
  TreeFacts TreeSpec TreeHist SoundFacts STR PAD PADSpec PADFacts Protocol Directory DirSpec DirFacts DirMain
  Auditor AudSpec AudFacts Client ClientSpec ClientFacts JointFacts Prop_Proof Prop_PAD Prop_Directory Prop_Auditor Prop_Client Equiv Prop_Equiv Prop_Whole Prop_Weak.
Import ListNotations.

(** ** Lengths *)
Lemma flat_map_length8 (f : N -> bytes) l : (forall w, length (f w) = 8%nat) -> length (flat_map f l) = (8 * length l)%nat.
Proof. intro H. induction l as [|a l IH]; [reflexivity|]. cbn [flat_map length]. rewrite app_length, IH, H. lia. Qed.
Lemma le_bytes_len k n : length (le_bytes k n) = k.
Proof. revert n. induction k as [|k IH]; intro n; [reflexivity|]. cbn [le_bytes length]. now rewrite IH. Qed.
Lemma state_length f : length (state f) = 25%nat.
Proof. reflexivity. Qed.
Lemma keccak_length s : length s = 25%nat -> length (keccak_f s) = 25%nat.
Proof.
  unfold keccak_f. generalize keccak_rc. intro l. revert s. induction l as [|rc l IH]; intros s H; [exact H|].
  cbn [fold_left]. apply IH. unfold chi. set (t := fun x y => N.lxor _ _). clearbody t.
  pose proof (state_length t) as E. destruct (state t) as [|a r]; [discriminate E|]. exact E.
Qed.
Lemma xor_words_length s : forall ws, length (xor_words s ws) = length s.
Proof. induction s as [|a s IH]; intros [|w ws]; cbn [xor_words length]; [reflexivity..|]. now rewrite IH. Qed.
Lemma absorb_length rate m : length (absorb rate m) = 25%nat.
Proof.
  unfold absorb. generalize (pieces rate (shake_pad rate m)). intro l.
  assert (H : forall s, length s = 25%nat -> length (fold_left (fun s blk => keccak_f (xor_words s (map le_word (pieces 8 blk)))) l s) = 25%nat).
  { induction l as [|b l IH]; intros s H; [exact H|]. cbn [fold_left]. apply IH, keccak_length. now rewrite xor_words_length. }
  apply H, repeat_length.
Qed.
Lemma squeeze_length rate k : (0 < rate <= 200)%nat -> forall n s, length s = 25%nat -> (n <= rate * S k)%nat -> length (squeeze rate k n s) = n.
Proof.
  intro R. induction k as [|k IH]; intros n s H B; cbn [squeeze];
    assert (O : length (firstn rate (flat_map (le_bytes 8) s)) = rate) by (rewrite firstn_length, (flat_map_length8 _ _ (le_bytes_len 8)), H; lia).
  - rewrite firstn_length, O. lia.
  - destruct (Nat.leb_spec n rate).
    + rewrite firstn_length, O. lia.
    + rewrite app_length, O, (IH (n - rate)%nat); [lia|now apply keccak_length|lia].
Qed.
Lemma shake_xof_length rate m n : (0 < rate <= 200)%nat -> length (shake_xof rate m n) = n.
Proof.
  intro R. apply squeeze_length; [exact R|apply absorb_length|].
  pose proof (Nat.div_mod n rate ltac:(lia)). pose proof (Nat.mod_upper_bound n rate ltac:(lia)). lia.
Qed.
(** Every output has the length asked for. *)
Theorem C92_shake256_length : forall m n, length (shake256 m n) = n.
Proof. intros m n. apply shake_xof_length. lia. Qed.
Theorem C92_shake128_length : forall m, length (shake128 m) = 32%nat.
Proof. intro m. apply shake_xof_length. lia. Qed.
Lemma sha_round_length h k w : length h = 8%nat -> length (sha_round h k w) = 8%nat.
Proof. intro H. do 9 (destruct h as [|? h]; try discriminate H); reflexivity. Qed.
Lemma sha_rounds_length ks : forall w h, length h = 8%nat -> length (sha_rounds ks w h) = 8%nat.
Proof. induction ks as [|k ks IH]; intros w h H; [exact H|]. cbn [sha_rounds]. now apply IH, sha_round_length. Qed.
Theorem C92_sha512_length : forall m, length (sha512 m) = 64%nat.
Proof.
  intro m. unfold sha512. rewrite flat_map_length8 by (intro w; rewrite rev_length; apply le_bytes_len).
  generalize (pieces 128 (sha_pad m)). intro l.
  assert (H : forall h, length h = 8%nat -> length (fold_left sha_block l h) = 8%nat).
  { induction l as [|b l IH]; intros h H; [exact H|]. cbn [fold_left]. apply IH. unfold sha_block.
    rewrite map_length, combine_length, sha_rounds_length by exact H. rewrite H. reflexivity. }
  rewrite H by reflexivity. reflexivity.
Qed.

(** ** The laws: nothing is left as a parameter *)
(** crypto/util.go:17-28, crypto/vrf/vrf.go, crypto/sign/sign.go with the hash functions they use; [strict] as in Ed25519.v *)
Definition RealCrypto (strict : bool) : Crypto := EdCrypto shake256 shake128 sha512 strict.
Theorem C92_laws : forall strict, CryptoOk (RealCrypto strict).
Proof. intro strict. apply C90_laws; [exact C92_shake256_length|exact C92_shake128_length|exact C92_sha512_length]. Qed.

(** ** The repository's own expected value *)
(** crypto/testutil.go:12-28: the seed of both keys of the test directory, "deterministic tests need 256 bit" *)
Definition test_seed : bytes :=
   [x64; x65; x74; x65; x72; x6d; x69; x6e; x69; x73; x74; x69; x63; x20; x74; x65; 
    x73; x74; x73; x20; x6e; x65; x65; x64; x20; x32; x35; x36; x20; x62; x69; x74].
(** protocol/auditor/common_test.go:23 *)
Definition golden_identity : bytes :=
   [xfd; x05; x84; xf7; x90; x54; xf8; x11; x3f; x21; xe5; x45; x0e; x0a; xd2; x1c; 
    x92; x21; xfc; x15; x93; x34; xc7; xbc; x16; x44; xe3; xe2; xa0; xfb; x50; x60].
Definition vrf_k : Z := 55463103192939691687745627336197730795335985627369218634148790790961463822696.
Definition vrf_lo : list digit := ([(0, 8, false); (1, 7, true); (2, 4, false); (3, 2, true); (4, 1, false); (5, 6, false); (6, 3, false); (7, 4, true); (8, 2, true); (9, 5, false); (10, 2, true); (11, 8, false); (12, 6, true); (13, 4, false); (14, 6, false); (15, 2, true); (16, 5, false); (17, 7, true); (18, 1, true); (19, 1, false); (20, 4, true); (21, 6, true); (22, 6, false); (23, 2, false); (24, 1, false); (25, 3, true); (27, 1, true); (28, 3, false); (29, 1, false); (30, 1, true); (31, 5, true)])%nat.
Definition vrf_hi : list digit := ([(0, 6, false); (1, 1, false); (2, 5, true); (3, 1, true); (4, 2, true); (5, 3, true); (6, 4, true); (7, 8, false); (8, 4, false); (9, 4, false); (10, 2, false); (11, 3, true); (12, 7, false); (13, 1, false); (14, 5, false); (15, 2, false); (16, 3, true); (17, 6, false); (18, 6, false); (19, 7, true); (20, 5, false); (21, 3, true); (22, 2, true); (23, 4, true); (24, 2, false); (25, 2, false); (26, 6, true); (30, 6, true); (31, 8, false)])%nat.
Definition vrf_x : Z := 26321704446205927527591947775575108853929688800071815041660107269152596985653.
Definition vrf_y : Z := 39313712061451296778193611727918974637266239225172351152758946628167313035831.
Definition vrf_e : Z := 97209756680109394489979104232262928563901231557992633172487738632123877855799.
Lemma vrf_cert : multiple_is vrf_k vrf_lo vrf_hi vrf_x vrf_y vrf_e = true.
Proof. vm_cast_no_check (eq_refl true). Qed.
Definition key_k : Z := 49950994698796500953571031044311742371345485333128552307297561666484409921040.
Definition key_lo : list digit := ([(1, 2, true); (2, 3, false); (3, 6, true); (4, 7, false); (5, 2, true); (6, 5, false); (7, 3, false); (8, 2, false); (9, 2, true); (10, 1, false); (11, 6, true); (12, 7, true); (13, 5, false); (14, 1, false); (15, 1, true); (16, 1, true); (17, 7, true); (18, 4, false); (19, 3, true); (20, 8, false); (21, 7, false); (22, 2, false); (23, 2, false); (24, 1, false); (26, 3, false); (27, 2, false); (28, 8, false); (29, 3, false); (30, 1, true); (31, 2, true)])%nat.
Definition key_hi : list digit := ([(0, 1, false); (1, 1, true); (2, 6, false); (3, 5, true); (4, 1, true); (5, 5, true); (6, 5, false); (7, 7, false); (8, 1, true); (9, 4, false); (10, 7, true); (11, 2, false); (12, 4, false); (13, 4, true); (14, 7, false); (15, 6, true); (16, 6, true); (17, 7, true); (18, 5, true); (19, 4, false); (20, 6, false); (21, 7, true); (22, 1, true); (23, 3, false); (24, 6, false); (25, 4, true); (26, 8, false); (27, 5, true); (28, 3, true); (29, 4, false); (30, 7, false); (31, 7, false)])%nat.
Definition key_x : Z := 27962256770093480382094952346137145526652472453077199017483497674668732788863.
Definition key_y : Z := 54543280985285755812415230079051588487444802584640175375288784382058471198732.
Definition key_e : Z := 112439325603943853524200722583395542414079794917460457395017576386015036018700.
Lemma key_cert : multiple_is key_k key_lo key_hi key_x key_y key_e = true.
Proof. vm_cast_no_check (eq_refl true). Qed.
Definition nonce_k : Z := 6716270607893274503278697297879967280588792573714536185205881847854652203120.
Definition nonce_lo : list digit := ([(3, 1, true); (4, 8, false); (5, 2, true); (6, 3, false); (7, 5, false); (8, 3, true); (9, 6, false); (10, 5, false); (11, 4, true); (12, 8, false); (15, 6, false); (16, 7, true); (17, 3, false); (18, 3, true); (19, 2, false); (20, 5, false); (21, 7, false); (22, 6, true); (23, 3, false); (24, 6, true); (25, 2, true); (26, 5, true); (27, 4, true); (28, 2, false); (29, 6, false); (30, 7, true); (31, 1, true)])%nat.
Definition nonce_hi : list digit := ([(0, 7, false); (1, 2, false); (2, 3, false); (3, 1, true); (4, 3, false); (5, 5, false); (6, 6, false); (7, 5, true); (8, 2, false); (9, 7, false); (10, 6, true); (11, 5, false); (12, 6, true); (13, 4, false); (14, 4, false); (15, 6, false); (18, 1, false); (19, 6, true); (20, 8, false); (21, 8, false); (22, 7, false); (23, 4, true); (24, 8, false); (25, 2, false); (26, 2, false); (27, 8, false); (28, 4, false); (29, 4, false); (30, 2, true); (31, 1, false)])%nat.
Definition nonce_x : Z := 5239455424631588536480639942892912963545179812450401866515236409232892279236.
Definition nonce_y : Z := 3174035261558905447157590058255911163032180108553309108108902042732041297053.
Definition nonce_e : Z := 3174035261558905447157590058255911163032180108553309108108902042732041297053.
Lemma nonce_cert : multiple_is nonce_k nonce_lo nonce_hi nonce_x nonce_y nonce_e = true.
Proof. vm_cast_no_check (eq_refl true). Qed.

Lemma test_seed_length : length test_seed = 32%nat. Proof. reflexivity. Qed.
Lemma test_seed32 : seed32 test_seed = test_seed. Proof. vm_compute. reflexivity. Qed.
Lemma vrf_scalar : clamped (firstn 32 (shake256 test_seed 64)) = vrf_k.
Proof. vm_cast_no_check (eq_refl vrf_k). Qed.
Lemma key_scalar : clamped (firstn 32 (sha512 test_seed)) = key_k.
Proof. vm_cast_no_check (eq_refl key_k). Qed.
(** crypto/testutil.go:12-28, protocol/policy.go:29-36: what the test directory signs *)
Definition test_policies (strict : bool) : Policies := NewPolicies 1 (@vrf_pub (RealCrypto strict) test_seed).
Lemma vrf_pub_test strict : @vrf_pub (RealCrypto strict) test_seed = zbytes 32 vrf_e.
Proof.
  cbn [vrf_pub RealCrypto EdCrypto CodeCrypto]. unfold key_of. rewrite test_seed32.
  pose proof (GenerateKey_ok shake256 C92_shake256_length test_seed test_seed_length) as G. rewrite G.
  pose proof (C77_key shake256 C92_shake256_length test_seed _ test_seed_length G) as K. rewrite K, vrf_scalar.
  rewrite (multiple_ok _ _ _ _ _ _ vrf_cert). unfold Public.
  generalize (zbytes 32 vrf_e). intro b. reflexivity.
Qed.
Definition test_message : bytes := ULongToBytes 0 ++ Version ++ HashID ++ zbytes 32 vrf_e ++ ULongToBytes 1.
Lemma nonce_scalar : (le_value (sha512 (skipn 32 (sha512 test_seed) ++ test_message)) mod L25519)%Z = nonce_k.
Proof. vm_cast_no_check (eq_refl nonce_k). Qed.
Definition test_signature : bytes :=
  zbytes 32 nonce_e ++ zbytes 32 ((nonce_k + ed_hash sha512 (zbytes 32 nonce_e) (zbytes 32 key_e) test_message * key_k) mod L25519).
Lemma test_sign strict : @sign_sign (RealCrypto strict) test_seed test_message = test_signature.
Proof.
  cbn [sign_sign RealCrypto EdCrypto CodeCrypto]. rewrite test_seed32.
  destruct (C90_key_and_signature sha512 C92_sha512_length test_seed test_message test_seed_length) as (_ & _ & S0). rewrite S0.
  rewrite key_scalar, nonce_scalar, (multiple_ok _ _ _ _ _ _ key_cert), (multiple_ok _ _ _ _ _ _ nonce_cert). reflexivity.
Qed.
Lemma test_digest : shake128 (concat [test_signature]) = golden_identity.
Proof. vm_cast_no_check (eq_refl golden_identity). Qed.
(** protocol/auditor/common_test.go:12-42: the identity computed for the first
    signed tree root of the test directory (merkletree/testutil.go:16-27: an empty
    tree that was not hashed, epoch 0, no previous hash) is the value the test
    expects, bit for bit. *)
Theorem C92_golden_identity : forall strict m, t_hash m = [] ->
  @ComputeDirectoryIdentity (RealCrypto strict)
    (NewDirSTR (@NewSTR (RealCrypto strict) _ Policies_Serialize test_seed (test_policies strict) m 0 [])) = Ok golden_identity.
Proof.
  intros strict m T. unfold test_policies. rewrite vrf_pub_test. unfold NewSTR. rewrite T. cbv zeta.
  cbn [N.eqb].
  assert (M : STR_Serialize Policies_Serialize (mkBody [] 0 0 [] []) (NewPolicies 1 (zbytes 32 vrf_e)) = test_message).
  { unfold test_message. generalize (zbytes 32 vrf_e). intro b. reflexivity. }
  rewrite M, (test_sign strict).
  unfold NewDirSTR, ComputeDirectoryIdentity, str_epoch, str_sig. cbn [d_body st_body s_epoch s_sig bind N.eqb].
  unfold Digest. cbn [shake RealCrypto EdCrypto CodeCrypto]. rewrite test_digest. reflexivity.
Qed.

(** ** A name whose proofs are accepted, whatever the keys *)
(** no line of its own in /repo: the name "bob" *)
Definition bob : bytes := [x62; x6f; x62].
Definition bob_r : Z := 2773805362329326020491723672775707796999008313392801940519814990094814253450.
Definition bob_v : Z := 44421981139710676470689412663649283390767955191693263366731993270177854003637.
Definition bob_w : Z := 39285503220009227630882933230368449830014188811169508841891667865539857108704.
Definition bob_u : Z := 13474063478947421241096079840694670535867037141127018652996798733778710329650.
Definition bob_y : Z := 27744354759341034775008642425704261882776268508635588679061440555920635669913.
Definition bob_x : Z := 9712972230289474851927010887344959988179226344041529184204709479287023175217.
Lemma bob_on : oncurve (Z2F bob_x) (Z2F bob_y).
Proof. apply zoncurve_ok. vm_compute. reflexivity. Qed.
Lemma bob_on' : oncurve (Z2F (- bob_x)) (Z2F bob_y).
Proof. apply zoncurve_ok. vm_compute. reflexivity. Qed.
Lemma bob_ell : ell_y (ell_u (Z2F bob_r)) = Z2F bob_y.
Proof.
  assert (U : ell_u (Z2F bob_r) = Z2F bob_u).
  { apply (ell_u_nonsq _ (Z2F bob_v) (Z2F bob_w)).
    - apply ell_v_check. unfold FA. zf. apply Z2F_eq. vm_compute. reflexivity.
    - rewrite ?F0_def, Z2F_eq. vm_compute. discriminate.
    - unfold mont, FA. zf. apply Z2F_eq. vm_compute. reflexivity.
    - unfold FA. zf. apply Z2F_eq. vm_compute. reflexivity. }
  rewrite U. apply ell_y_check.
  - zf. rewrite ?F0_def, Z2F_eq. vm_compute. discriminate.
  - zf. apply Z2F_eq. vm_compute. reflexivity.
Qed.
Lemma bob_hash : (le_value (shake256 bob 32) mod 2 ^ 255)%Z = bob_r.
Proof. vm_cast_no_check (eq_refl bob_r). Qed.
Lemma bob_proper : ~ H1 shake256 bob pO.
Proof.
  intros (E & (Y & _) & H). symmetry in H. rewrite bob_hash, bob_ell in Y.
  pose proof (onP E) as O. rewrite Y in O. destruct (same_y _ _ _ bob_on O) as [X|X].
  - assert (Q : E = mkP _ _ bob_on) by (apply point_ext; [exact X|exact Y]). rewrite Q in H. revert H.
    rewrite (smul_isO 8 bob_x bob_y _ (zrep_affine bob_x bob_y bob_on)). apply not_true_iff_false. vm_compute. reflexivity.
  - rewrite <- Z2F_opp in X. assert (Q : E = mkP _ _ bob_on') by (apply point_ext; [exact X|exact Y]). rewrite Q in H. revert H.
    rewrite (smul_isO 8 (- bob_x) bob_y _ (zrep_affine (- bob_x) bob_y bob_on')). apply not_true_iff_false. vm_compute. reflexivity.
Qed.
(** With the actual hash functions a name's proof, made with any private key, is
    accepted exactly if SHAKE256 of the name does not hit one of the few strings
    mapped to the neutral element; "bob" does not. *)
Theorem C92_proofs_accepted : forall strict vsk name, let C := RealCrypto strict in
  @vrf_verify C (@vrf_pub C vsk) name (fst (@vrf_prove C vsk name)) (snd (@vrf_prove C vsk name)) = true <-> ~ H1 shake256 name pO.
Proof.
  intros strict vsk name. 
  exact (proj2 (C64_code_satisfies_laws shake256 shake128 _ _ _ C92_shake256_length C92_shake128_length
    (fun sk m => proj1 (proj2 (C90_completeness sha512 C92_sha512_length strict (seed32 sk) m (seed32_length sk))))
    (ok_sign _ (C92_laws strict))) vsk name).
Qed.
Theorem C92_bob_accepted : forall strict vsk, let C := RealCrypto strict in
  @vrf_verify C (@vrf_pub C vsk) bob (fst (@vrf_prove C vsk bob)) (snd (@vrf_prove C vsk bob)) = true.
Proof. intros strict vsk. exact (proj2 (C92_proofs_accepted strict vsk bob) bob_proper). Qed.

(** The weakness of C91 is one of the actual functions: with a signing key that is
    the neutral element, an audit log and two users who check with it do not notice
    that "bob" has two keys. *)
Theorem C92_two_keys_for_bob_refuted : forall strict, let C := RealCrypto strict in exists pk, length pk = 32%nat /\
  forall vsk k1 k2 : bytes, exists s0 ops log rec ccA lA ccA' ccB lB ccB' apA apB sA sB,
    epoch_of s0 = Some 0%N /\ @log_run C [] ops = Ok log /\ Forall good_init ops /\ (N.of_nat (received ops) < 2 ^ 64)%N /\
    (forall addr pk' s snaps, In (LInit addr pk' (Some s :: snaps)) ops -> @Digest C [sig_of s] = @Digest C [sig_of s0] -> pk' = pk) /\
    serves log (@Digest C [sig_of s0]) rec /\ (N.of_nat (length rec) < 2 ^ 64)%N /\ Forall hash_sized rec /\
    @checked C pk s0 log ccA lA ccA' /\ @checked C pk s0 log ccB lB ccB' /\
    @accepted C ccA lA bob apA sA /\ @accepted C ccB lB bob apB sB /\ epoch_of sA = epoch_of sB /\
    @says apA (Some k1) /\ @says apB (Some k2).
Proof.
  intro strict. destruct (C91_neutral_key_refuted shake256 shake128 sha512 strict C92_shake256_length C92_shake128_length C92_sha512_length) as (pk & L & H).
  exists pk. split; [exact L|]. intros vsk k1 k2. exact (H vsk bob k1 k2 bob_proper).
Qed.
Print Assumptions C92_shake256_length.
Print Assumptions C92_shake128_length.
Print Assumptions C92_sha512_length.
Print Assumptions C92_laws.
Print Assumptions C92_golden_identity.
Print Assumptions C92_proofs_accepted.
Print Assumptions C92_bob_accepted.
Print Assumptions C92_two_keys_for_bob_refuted.

(** ** Cases *)
(** An honest run with the actual functions, for every pair of private keys: the
    directory registers "bob", two users accept it and check with an honest log. *)
Example C92_real_run : forall strict sk vsk k, let C := RealCrypto strict in exists log log' ccA ccA' ccB ccB',
  @epoch_of (@ho_s0 C sk vsk bob k) = Some 0%N /\
  @log_run C [] (@ho_ops C sk vsk bob k) = Ok log /\ @log_run C log (@ho_ops' C sk vsk bob k) = Ok log' /\
  @checked C (@sign_pub C sk) (@ho_s0 C sk vsk bob k) log ccA (@ho_userA C sk vsk bob k) ccA' /\
  @checked C (@sign_pub C sk) (@ho_s0 C sk vsk bob k) log' ccB (@ho_userB C sk vsk bob k) ccB' /\
  @accepted C ccA (@ho_userA C sk vsk bob k) bob (@one_path C vsk bob k) (@ho_s1 C sk vsk bob k) /\
  @accepted C ccB (@ho_userB C sk vsk bob k) bob (@one_path C vsk bob k) (@ho_s1 C sk vsk bob k).
Proof.
  intros strict sk vsk k C.
  destruct (@C83_example C (C92_laws strict) sk vsk bob k (C92_bob_accepted strict vsk))
    as (log & log' & ccA & ccA' & ccB & ccB' & E0 & R & R' & _ & _ & _ & _ & _ & _ & CA & CB & AA & AB & _).
  exists log, log', ccA, ccA', ccB, ccB'. split; [exact E0|]. split; [exact R|]. split; [exact R'|]. split; [exact CA|]. split; [exact CB|]. split; [exact AA|exact AB].
Qed.
(** Published values: FIPS 202 (the empty string), FIPS 180-4 ("abc"), and inputs
    around the block sizes. *)
Example shake128_empty : shake128 [] = [x7f; x9c; x2b; xa4; xe8; x8f; x82; x7d; x61; x60; x45; x50; x76; x05; x85; x3e; xd7; x3b; x80; x93; xf6; xef; xbc; x88; xeb; x1a; x6e; xac; xfa; x66; xef; x26].
Proof. vm_cast_no_check (eq_refl ([x7f; x9c; x2b; xa4; xe8; x8f; x82; x7d; x61; x60; x45; x50; x76; x05; x85; x3e; xd7; x3b; x80; x93; xf6; xef; xbc; x88; xeb; x1a; x6e; xac; xfa; x66; xef; x26])). Qed.
Example shake256_empty : shake256 [] 64 = [x46; xb9; xdd; x2b; x0b; xa8; x8d; x13; x23; x3b; x3f; xeb; x74; x3e; xeb; x24; x3f; xcd; x52; xea; x62; xb8; x1b; x82; xb5; x0c; x27; x64; x6e; xd5; x76; x2f; xd7; x5d; xc4; xdd; xd8; xc0; xf2; x00; xcb; x05; x01; x9d; x67; xb5; x92; xf6; xfc; x82; x1c; x49; x47; x9a; xb4; x86; x40; x29; x2e; xac; xb3; xb7; xc4; xbe].
Proof. vm_cast_no_check (eq_refl ([x46; xb9; xdd; x2b; x0b; xa8; x8d; x13; x23; x3b; x3f; xeb; x74; x3e; xeb; x24; x3f; xcd; x52; xea; x62; xb8; x1b; x82; xb5; x0c; x27; x64; x6e; xd5; x76; x2f; xd7; x5d; xc4; xdd; xd8; xc0; xf2; x00; xcb; x05; x01; x9d; x67; xb5; x92; xf6; xfc; x82; x1c; x49; x47; x9a; xb4; x86; x40; x29; x2e; xac; xb3; xb7; xc4; xbe])). Qed.
Example shake128_167 : shake128 (repeat x61 167) = [x4f; x5c; x6c; x53; xae; x81; x90; xa8; xff; x8a; x55; xb2; x12; x5d; x28; x70; x30; x52; xd1; x02; x78; x57; x09; x60; xc2; x06; x6a; x90; x5d; x91; x6c; x34].
Proof. vm_cast_no_check (eq_refl ([x4f; x5c; x6c; x53; xae; x81; x90; xa8; xff; x8a; x55; xb2; x12; x5d; x28; x70; x30; x52; xd1; x02; x78; x57; x09; x60; xc2; x06; x6a; x90; x5d; x91; x6c; x34])). Qed.
Example shake128_168 : shake128 (repeat x61 168) = [xc2; x2e; x11; x58; x6c; x22; xb7; x13; xbd; xe3; x73; xfc; xe9; x33; x14; xd7; x68; x29; xde; x2c; x21; xd9; x40; xa2; x8e; xb6; x59; xb8; xde; xc9; x53; xa2].
Proof. vm_cast_no_check (eq_refl ([xc2; x2e; x11; x58; x6c; x22; xb7; x13; xbd; xe3; x73; xfc; xe9; x33; x14; xd7; x68; x29; xde; x2c; x21; xd9; x40; xa2; x8e; xb6; x59; xb8; xde; xc9; x53; xa2])). Qed.
Example shake256_long : skipn 130 (shake256 [x61] 140) = [x68; xdb; xfc; x26; xb1; x24; x0c; xe4; x23; x9f].
Proof. vm_cast_no_check (eq_refl ([x68; xdb; xfc; x26; xb1; x24; x0c; xe4; x23; x9f])). Qed.
Example sha512_abc : sha512 [x61; x62; x63] = [xdd; xaf; x35; xa1; x93; x61; x7a; xba; xcc; x41; x73; x49; xae; x20; x41; x31; x12; xe6; xfa; x4e; x89; xa9; x7e; xa2; x0a; x9e; xee; xe6; x4b; x55; xd3; x9a; x21; x92; x99; x2a; x27; x4f; xc1; xa8; x36; xba; x3c; x23; xa3; xfe; xeb; xbd; x45; x4d; x44; x23; x64; x3c; xe8; x0e; x2a; x9a; xc9; x4f; xa5; x4c; xa4; x9f].
Proof. vm_cast_no_check (eq_refl ([xdd; xaf; x35; xa1; x93; x61; x7a; xba; xcc; x41; x73; x49; xae; x20; x41; x31; x12; xe6; xfa; x4e; x89; xa9; x7e; xa2; x0a; x9e; xee; xe6; x4b; x55; xd3; x9a; x21; x92; x99; x2a; x27; x4f; xc1; xa8; x36; xba; x3c; x23; xa3; xfe; xeb; xbd; x45; x4d; x44; x23; x64; x3c; xe8; x0e; x2a; x9a; xc9; x4f; xa5; x4c; xa4; x9f])). Qed.
Example sha512_111 : sha512 (repeat x61 111) = [xfa; x91; x21; xc7; xb3; x2b; x9e; x01; x73; x3d; x03; x4c; xfc; x78; xcb; xf6; x7f; x92; x6c; x7e; xd8; x3e; x82; x20; x0e; xf8; x68; x18; x19; x69; x21; x76; x0b; x4b; xef; xf4; x84; x04; xdf; x81; x1b; x95; x38; x28; x27; x44; x61; x67; x3c; x68; xd0; x4e; x29; x7b; x0e; xb7; xb2; xb4; xd6; x0f; xc6; xb5; x66; xa2].
Proof. vm_cast_no_check (eq_refl ([xfa; x91; x21; xc7; xb3; x2b; x9e; x01; x73; x3d; x03; x4c; xfc; x78; xcb; xf6; x7f; x92; x6c; x7e; xd8; x3e; x82; x20; x0e; xf8; x68; x18; x19; x69; x21; x76; x0b; x4b; xef; xf4; x84; x04; xdf; x81; x1b; x95; x38; x28; x27; x44; x61; x67; x3c; x68; xd0; x4e; x29; x7b; x0e; xb7; xb2; xb4; xd6; x0f; xc6; xb5; x66; xa2])). Qed.
Example sha512_112 : sha512 (repeat x61 112) = [xc0; x1d; x08; x0e; xfd; x49; x27; x76; xa1; xc4; x3b; xd2; x3d; xd9; x9d; x0a; x2e; x62; x6d; x48; x1e; x16; x78; x2e; x75; xd5; x4c; x25; x03; xb5; xdc; x32; xbd; x05; xf0; xf1; xba; x33; xe5; x68; xb8; x8f; xd2; xd9; x70; x92; x9b; x71; x9e; xcb; xb1; x52; xf5; x8f; x13; x0a; x40; x7c; x88; x30; x60; x4b; x70; xca].
Proof. vm_cast_no_check (eq_refl ([xc0; x1d; x08; x0e; xfd; x49; x27; x76; xa1; xc4; x3b; xd2; x3d; xd9; x9d; x0a; x2e; x62; x6d; x48; x1e; x16; x78; x2e; x75; xd5; x4c; x25; x03; xb5; xdc; x32; xbd; x05; xf0; xf1; xba; x33; xe5; x68; xb8; x8f; xd2; xd9; x70; x92; x9b; x71; x9e; xcb; xb1; x52; xf5; x8f; x13; x0a; x40; x7c; x88; x30; x60; x4b; x70; xca])). Qed.
