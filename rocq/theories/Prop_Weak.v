(** C91: what the signature scheme has to give for the audit log to protect the
    users, and that Ed25519 gives it only for keys that are not of small order.

    Reading guide: the vocabulary of C83 ([Equiv.v], Prop_Equiv.v). *)
From Coq Require Import List NArith ZArith Lia Bool Arith.
From Verif Require Import Base Utils Crypto Tree TreeFacts TreeSpec TreeHist SoundFacts STR PAD PADSpec PADFacts Protocol Directory DirSpec DirFacts DirMain
  Auditor AudSpec AudFacts Client ClientSpec ClientFacts JointFacts Prop_Proof Prop_PAD Prop_Directory Prop_Auditor Prop_Client Equiv Prop_VRF Prop_Equiv
  EncFacts EdGroup VRFSpec VRFFacts Prop_Whole Ed25519 Prop_Ed25519.
Import ListNotations.

(** ** One signature for everything: the directory can show each user another tree *)
Section Weak.
  Context {C : Crypto}.
  Variables (pk sig vsk uname k1 k2 : bytes).
  Hypothesis ALL : forall m, sign_verify pk m sig = true.
  Local Definition pol : Policies := NewPolicies 60 (vrf_pub vsk).
  Local Definition uni (T : bytes) (e pe : N) (P : bytes) : DirSTR := mkDir (Some (mkBody T e pe P sig)) (Some pol).
  Local Definition w_s0 : DirSTR := uni (one_root vsk uname k1) 0 0 [].
  Local Definition w_a1 : DirSTR := uni (one_root vsk uname k1) 1 0 (Digest [sig]).
  Local Definition w_b1 : DirSTR := uni (one_root vsk uname k2) 1 0 (Digest [sig]).
  Local Definition w_c2 : DirSTR := uni (one_root vsk uname k1) 2 1 (Digest [sig]).
  Local Definition w_ops : list log_op := [LInit [] pk [Some w_s0]; LAudit (Digest [sig]) (NewSTRHistoryRange [Some w_a1; Some w_c2])].
  Lemma uni_signed T e pe P : signed_by pk (uni T e pe P).
  Proof. eexists _, _. split; [reflexivity|]. split; [reflexivity|]. apply ALL. Qed.
  Lemma uni_extends T T' e e' pe P : e' = add64 e 1 -> extends (uni T e' e (Digest [sig])) (uni T' e pe P).
  Proof.
    intros ->. unfold extends, uni, DirSTR_VerifyHashChain. cbn [d_body]. unfold VerifyHashChain. cbn [s_pepoch s_epoch s_phash s_sig]. rewrite !N.eqb_refl, beq_refl. reflexivity.
  Qed.
  Hypothesis OK : CryptoOk C.
  Hypothesis VW : vrf_verify (vrf_pub vsk) uname (fst (vrf_prove vsk uname)) (snd (vrf_prove vsk uname)) = true.
  Lemma w_log : exists log, log_run [] w_ops = Ok log /\ serves log (Digest [sig]) [w_s0; w_a1; w_c2].
  Proof.
    destruct (log_fresh [] pk w_s0 eq_refl) as (h & R & HI & K). change (sig_of w_s0) with sig in R, HI.
    assert (M : map_get beq (Digest [sig]) (map_set beq (Digest [sig]) h []) = Some h) by apply (map_get_set_same beq beq_eq).
    destruct (log_grow _ _ h w_s0 [] [w_a1; w_c2] M HI ltac:(discriminate)) as (h1 & R1 & HI1 & K1).
    { rewrite K. cbn [follows last]. split; [apply uni_signed|]. split; [apply uni_extends; reflexivity|]. split; [apply uni_signed|]. split; [apply uni_extends; reflexivity|exact I]. }
    eexists. split.
    - unfold w_ops. change [LInit [] pk [Some w_s0]; LAudit (Digest [sig]) (NewSTRHistoryRange [Some w_a1; Some w_c2])]
        with ([LInit [] pk [Some w_s0]] ++ [LAudit (Digest [sig]) (NewSTRHistoryRange (map Some [w_a1; w_c2]))]).
      rewrite log_run_app, R. cbn [bind]. exact R1.
    - apply (observed_spec _ _ w_s0 [w_a1; w_c2] h1); [apply (map_get_set_same beq beq_eq)|exact HI1|reflexivity].
  Qed.
  (** Two users, each of whom follows the chain and at the end checks it with the
      log, have accepted two keys for the name in epoch 1. *)
  Lemma weak_key : exists s0 ops log rec ccA lA ccA' ccB lB ccB' apA apB sA sB,
    epoch_of s0 = Some 0%N /\ log_run [] ops = Ok log /\ Forall good_init ops /\ (N.of_nat (received ops) < 2 ^ 64)%N /\
    (forall addr pk' s snaps, In (LInit addr pk' (Some s :: snaps)) ops -> Digest [sig_of s] = Digest [sig_of s0] -> pk' = pk) /\
    serves log (Digest [sig_of s0]) rec /\ (N.of_nat (length rec) < 2 ^ 64)%N /\ Forall hash_sized rec /\
    checked pk s0 log ccA lA ccA' /\ checked pk s0 log ccB lB ccB' /\
    accepted ccA lA uname apA sA /\ accepted ccB lB uname apB sB /\ epoch_of sA = epoch_of sB /\
    says apA (Some k1) /\ says apB (Some k2).
  Proof.
    destruct w_log as (log & R & S1). set (cc0 := mkCC (mkAud pk w_s0) [] true []).
    assert (ST : forall cc T k e e' pe P, cc_useTBs cc = true -> cc_tbs cc = [] -> cc_aud cc = mkAud pk (uni T e pe P) -> e' = add64 e 1 ->
      exists cc', HandleResponse cc KeyLookupType (snd (fst (fst (at_answer vsk uname k (uni (one_root vsk uname k) e' e (Digest [sig])))))) uname None = Ok (cc', None) /\
        answer (snd (fst (fst (at_answer vsk uname k (uni (one_root vsk uname k) e' e (Digest [sig])))))) (one_path vsk uname k) (uni (one_root vsk uname k) e' e (Digest [sig])) /\
        cc_useTBs cc' = true /\ cc_tbs cc' = [] /\ cc_aud cc' = mkAud pk (uni (one_root vsk uname k) e' e (Digest [sig]))).
    { intros cc T k e e' pe P U TB A E. destruct (at_step vsk uname VW cc (uni (one_root vsk uname k) e' e (Digest [sig])) k (mkBody (one_root vsk uname k) e' e (Digest [sig]) sig) U TB)
        as (cc' & Q1 & Q2 & Q3 & Q4 & Q5); [|reflexivity|reflexivity|exists pol; split; reflexivity|].
      - split; [discriminate|]. right. rewrite A. cbn [au_key au_str]. split; [apply uni_signed|apply uni_extends; exact E].
      - exists cc'. rewrite A in Q5. cbn [au_key] in Q5. cbn [at_answer fst snd]. auto. }
    destruct (ST cc0 _ k1 0%N 1%N 0%N [] eq_refl eq_refl eq_refl eq_refl) as (a1 & HA1 & NA1 & UA1 & TA1 & CA1).
    destruct (ST a1 _ k1 1%N 2%N _ _ UA1 TA1 CA1 eq_refl) as (a2 & HA2 & NA2 & UA2 & TA2 & CA2).
    destruct (ST cc0 _ k2 0%N 1%N 0%N [] eq_refl eq_refl eq_refl eq_refl) as (b1 & HB1 & NB1 & UB1 & TB1 & CB1).
    destruct (ST b1 _ k1 1%N 2%N _ _ UB1 TB1 CB1 eq_refl) as (b2 & HB2 & NB2 & UB2 & TB2 & CB2).
    exists w_s0, w_ops, log, [w_s0; w_a1; w_c2], cc0, [at_answer vsk uname k1 w_a1; at_answer vsk uname k1 w_c2], a2,
      cc0, [at_answer vsk uname k2 w_b1; at_answer vsk uname k1 w_c2], b2, (one_path vsk uname k1), (one_path vsk uname k2), w_a1, w_b1.
    assert (CK : forall cc', cc_aud cc' = mkAud pk w_c2 -> exists a b msg, GetObservedSTRs log (Digest [sig_of w_s0]) a b = Ok msg /\ CheckEquivocation cc' msg = Ok None).
    { intros cc' CA. exists 0%N, 2%N, (NewSTRHistoryRange (map Some [w_s0; w_a1; w_c2])). split; [exact (S1 0 2)|].
      apply C40_truthful_accepted; [|discriminate|left; rewrite CA; reflexivity]. rewrite CA. cbn [au_key follows].
      split; [apply uni_signed|]. split; [apply uni_extends; reflexivity|]. split; [apply uni_signed|]. split; [apply uni_extends; reflexivity|exact I]. }
    split; [reflexivity|]. split; [exact R|]. split.
    { constructor; [exists w_s0, []; split; [reflexivity|exact I]|]. constructor; [exact I|constructor]. }
    split; [reflexivity|]. split.
    { intros addr pk' s snaps [Q|[Q|[]]] _; [|discriminate Q]. assert (IJ : forall a p l a2 p2 l2, LInit a p l = LInit a2 p2 l2 -> p = p2) by (intros; congruence). apply IJ in Q. symmetry. exact Q. }
    split; [exact S1|]. split; [reflexivity|]. split.
    { assert (LN : forall k, length (one_root vsk uname k) = 32) by (intro k; apply (ok_shake_len C OK)).
      constructor; [eexists; split; [reflexivity|apply LN]|]. constructor; [eexists; split; [reflexivity|apply LN]|]. constructor; [eexists; split; [reflexivity|apply LN]|constructor]. }
    split; [|split; [|split; [|split; [|split; [reflexivity|split; apply (one_path_says OK)]]]]].
    - constructor; [reflexivity| |reflexivity|exact (CK a2 CA2)].
      exists a1, None. split; [exact HA1|]. split; [left; reflexivity|]. exists a2, None. split; [exact HA2|]. split; [left; reflexivity|]. reflexivity.
    - constructor; [reflexivity| |reflexivity|exact (CK b2 CB2)].
      exists b1, None. split; [exact HB1|]. split; [left; reflexivity|]. exists b2, None. split; [exact HB2|]. split; [left; reflexivity|]. reflexivity.
    - exists a1, None. split; [exact HA1|]. left. split; [reflexivity|]. split; [reflexivity|exact NA1].
    - exists b1, None. split; [exact HB1|]. left. split; [reflexivity|]. split; [reflexivity|exact NB1].
  Qed.
End Weak.

(** For every scheme: a key under which one signature verifies for all messages
    lets the directory show two users two keys for one name, although both check
    with the same honest audit log, all tree hashes have the length of a hash and
    no two signatures or paths have a hash in common. *)
Theorem C91_one_signature_for_all_refuted : forall (C : Crypto), CryptoOk C -> forall pk sig, (forall m, sign_verify pk m sig = true) ->
  forall vsk uname k1 k2 : bytes, vrf_verify (vrf_pub vsk) uname (fst (vrf_prove vsk uname)) (snd (vrf_prove vsk uname)) = true ->
  exists s0 ops log rec ccA lA ccA' ccB lB ccB' apA apB sA sB,
    epoch_of s0 = Some 0%N /\ log_run [] ops = Ok log /\ Forall good_init ops /\ (N.of_nat (received ops) < 2 ^ 64)%N /\
    (forall addr pk' s snaps, In (LInit addr pk' (Some s :: snaps)) ops -> Digest [sig_of s] = Digest [sig_of s0] -> pk' = pk) /\
    serves log (Digest [sig_of s0]) rec /\ (N.of_nat (length rec) < 2 ^ 64)%N /\ Forall hash_sized rec /\
    checked pk s0 log ccA lA ccA' /\ checked pk s0 log ccB lB ccB' /\
    accepted ccA lA uname apA sA /\ accepted ccB lB uname apB sB /\ epoch_of sA = epoch_of sB /\
    says apA (Some k1) /\ says apB (Some k2).
Proof. intros C OK pk sig ALL vsk uname k1 k2 VW. exact (weak_key pk sig vsk uname k1 k2 ALL OK VW). Qed.

(** ** Ed25519 *)
Section Ed.
  Variables (xof : bytes -> nat -> bytes) (hash sha : bytes -> bytes) (strict : bool).
  Hypothesis XL : forall m n, length (xof m n) = n.
  Hypothesis HL : forall x, length (hash x) = 32%nat.
  Hypothesis SL : forall m, length (sha m) = 64%nat.
  Local Definition EdC : Crypto := EdCrypto xof hash sha strict.
  Local Existing Instance EdC.

  (** The neutral element as directory key does this, whatever the hash functions
      are; nothing in the code refuses it. *)
  Theorem C91_neutral_key_refuted : exists pk, length pk = 32 /\
    forall vsk uname k1 k2 : bytes, ~ H1 xof uname pO ->
    exists s0 ops log rec ccA lA ccA' ccB lB ccB' apA apB sA sB,
      epoch_of s0 = Some 0%N /\ log_run [] ops = Ok log /\ Forall good_init ops /\ (N.of_nat (received ops) < 2 ^ 64)%N /\
      (forall addr pk' s snaps, In (LInit addr pk' (Some s :: snaps)) ops -> Digest [sig_of s] = Digest [sig_of s0] -> pk' = pk) /\
      serves log (Digest [sig_of s0]) rec /\ (N.of_nat (length rec) < 2 ^ 64)%N /\ Forall hash_sized rec /\
      checked pk s0 log ccA lA ccA' /\ checked pk s0 log ccB lB ccB' /\
      accepted ccA lA uname apA sA /\ accepted ccB lB uname apB sB /\ epoch_of sA = epoch_of sB /\
      says apA (Some k1) /\ says apB (Some k2).
  Proof.
    exists (encode pO). split; [apply encode_length|]. intros vsk uname k1 k2 NH.
    refine (C91_one_signature_for_all_refuted EdC (C90_laws xof hash sha strict XL HL SL) (encode pO) (encode pO ++ zbytes 32 0) _ vsk uname k1 k2 _).
    - intro m. cbn [sign_verify EdC EdCrypto CodeCrypto]. rewrite encode_length. exact (C90_neutral_key sha SL strict m).
    - apply (proj2 (C64_code_satisfies_laws xof hash _ _ _ XL HL
        (fun sk m => proj1 (proj2 (C90_completeness sha SL strict (seed32 sk) m (seed32_length sk)))) (ok_sign _ (C90_laws xof hash sha strict XL HL SL))) vsk uname).
      exact NH.
  Qed.

  (** Two different byte strings that SHA-512, reduced modulo the group order as
      the signature equation does, does not tell apart after the same R and key. *)
  Definition sha_coincidence (pk : bytes) (held : list DirSTR) : Prop :=
    exists x y bx by_, In x held /\ In y held /\ sig_of x = sig_of y /\ DirSTR_Serialize x = Ok bx /\ DirSTR_Serialize y = Ok by_ /\ bx <> by_ /\
      ed_hash sha (firstn 32 (sig_of x)) pk bx = ed_hash sha (firstn 32 (sig_of x)) pk by_.
  (** For every other key the users agree, or one of the hash functions failed on
      data they hold. *)
  Theorem C91_no_equivocation : forall pk A s0 ops ops' log log' rec ccA lA ccA' ccB lB ccB' uname apA apB sA sB vA vB,
    denotes pk A -> ~ small_order A ->
    epoch_of s0 = Some 0%N ->
    log_run [] ops = Ok log -> log_run log ops' = Ok log' -> Forall good_init (ops ++ ops') ->
    (N.of_nat (received (ops ++ ops')) < 2 ^ 64)%N ->
    (forall addr pk' s snaps, In (LInit addr pk' (Some s :: snaps)) (ops ++ ops') -> Digest [sig_of s] = Digest [sig_of s0] -> pk' = pk) ->
    serves log' (Digest [sig_of s0]) rec -> (N.of_nat (length rec) < 2 ^ 64)%N -> Forall hash_sized (tl rec) ->
    checked pk s0 log ccA lA ccA' -> checked pk s0 log' ccB lB ccB' ->
    accepted ccA lA uname apA sA -> accepted ccB lB uname apB sB -> epoch_of sA = epoch_of sB ->
    says apA vA -> says apB vB ->
    let held := s0 :: seen lA ++ seen lB ++ rec in
    vA = vB \/
    collision_between (map sig_of held) (map sig_of held) \/
    sha_coincidence pk held \/
    (exists vpk, lucky xof vpk uname (ap_vrf apA) \/ lucky xof vpk uname (ap_vrf apB)) \/
    collision_between (verify_inputs apA uname (leaf_value apA)) (verify_inputs apB uname (leaf_value apB)).
  Proof.
    intros pk A s0 ops ops' log log' rec ccA lA ccA' ccB lB ccB' uname apA apB sA sB vA vB DA NS E0 R R' G B K SVs LR SZ CA CB AA AB EE TA TB held.
    destruct (C88_no_equivocation xof hash _ _ _ XL HL (fun sk m => proj1 (proj2 (C90_completeness sha SL strict (seed32 sk) m (seed32_length sk))))
      (ok_sign _ (C90_laws xof hash sha strict XL HL SL)) pk s0 ops ops' log log' rec ccA lA ccA' ccB lB ccB' uname apA apB sA sB vA vB
      E0 R R' G B K SVs LR SZ CA CB AA AB EE TA TB) as [E|[E|[E|[E|E]]]].
    - left; exact E.
    - right; left; exact E.
    - right; right; left. destruct E as (x & y & bx & by_ & Ix & Iy & ES & (b1 & c1 & B1 & S1 & V1) & (b2 & c2 & B2 & S2 & V2) & Sx & Sy & NE).
      exists x, y, bx, by_. split; [exact Ix|]. split; [exact Iy|]. split; [exact ES|]. split; [exact Sx|]. split; [exact Sy|]. split; [exact NE|].
      assert (c1 = bx) by congruence. assert (c2 = by_) by congruence. subst c1 c2.
      assert (G1 : s_sig b1 = sig_of x) by (unfold sig_of; rewrite B1; reflexivity). assert (G2 : s_sig b2 = sig_of x) by (rewrite ES; unfold sig_of; rewrite B2; reflexivity).
      rewrite G1 in V1. rewrite G2 in V2. cbn [sign_verify Prop_Whole.CC CodeCrypto] in V1, V2.
      apply andb_prop in V1 as [L1 V1]. apply andb_prop in V2 as [_ V2]. apply Nat.eqb_eq in L1.
      exact (C90_binding sha SL strict strict pk bx by_ (sig_of x) A L1 DA NS V1 V2).
    - right; right; right; left; exact E.
    - right; right; right; right; exact E.
  Qed.
End Ed.
Print Assumptions C91_one_signature_for_all_refuted.
Print Assumptions C91_neutral_key_refuted.
Print Assumptions C91_no_equivocation.

(** The hypotheses of C91_no_equivocation are met: a directory with a generated
    Ed25519 key, two honest users, an honest log. *)
Definition sha0 (m : bytes) : bytes := firstn 64 (rev m ++ repeat x05 64).
Lemma sha0_len m : length (sha0 m) = 64.
Proof. unfold sha0. rewrite firstn_length, app_length, repeat_length. lia. Qed.
Definition WC : Crypto := EdCrypto xof5 toy_shake sha0 true.
Example C91_example : forall sk vsk uname k, exists A log log' ccA ccA' ccB ccB',
  denotes (@sign_pub WC sk) A /\ ~ small_order A /\
  @epoch_of (@ho_s0 WC sk vsk uname k) = Some 0%N /\
  @log_run WC [] (@ho_ops WC sk vsk uname k) = Ok log /\ @log_run WC log (@ho_ops' WC sk vsk uname k) = Ok log' /\
  @checked WC (@sign_pub WC sk) (@ho_s0 WC sk vsk uname k) log ccA (@ho_userA WC sk vsk uname k) ccA' /\
  @checked WC (@sign_pub WC sk) (@ho_s0 WC sk vsk uname k) log' ccB (@ho_userB WC sk vsk uname k) ccB' /\
  @accepted WC ccA (@ho_userA WC sk vsk uname k) uname (@one_path WC vsk uname k) (@ho_s1 WC sk vsk uname k) /\
  @accepted WC ccB (@ho_userB WC sk vsk uname k) uname (@one_path WC vsk uname k) (@ho_s1 WC sk vsk uname k).
Proof.
  intros sk vsk uname k. destruct (C90_generated_not_small sha0 sha0_len (seed32 sk) (seed32_length sk)) as (A & DA & NA).
  pose proof (C90_laws xof5 toy_shake sha0 true xof5_len (ok_shake_len _ ToyCrypto_ok) sha0_len) as OK.
  pose proof (proj2 (C64_code_satisfies_laws xof5 toy_shake _ _ _ xof5_len (ok_shake_len _ ToyCrypto_ok)
        (fun sk m => proj1 (proj2 (C90_completeness sha0 sha0_len true (seed32 sk) m (seed32_length sk)))) (ok_sign _ OK)) vsk uname) as W.
  destruct (@C83_example WC OK sk vsk uname k (proj2 W (xof5_proper uname)))
    as (log & log' & ccA & ccA' & ccB & ccB' & E0 & R & R' & _ & _ & _ & _ & _ & _ & CA & CB & AA & AB & _).
  exists A, log, log', ccA, ccA', ccB, ccB'. split; [exact DA|]. split; [exact NA|]. split; [exact E0|]. split; [exact R|]. split; [exact R'|]. split; [exact CA|]. split; [exact CB|]. split; [exact AA|exact AB].
Qed.
(** So is that of C91_neutral_key_refuted. *)
Example C91_neutral_example : forall uname, ~ H1 xof5 uname pO.
Proof. exact xof5_proper. Qed.
