(** Specification vocabulary and chain arguments for C83: two users and one
    audit log in front of a server that may do anything. *)
From Coq Require Import List NArith ZArith Lia Bool Arith.
From Verif Require Import Base Utils Crypto Tree TreeFacts TreeSpec TreeHist SoundFacts STR PAD PADSpec PADFacts Protocol Directory DirSpec DirFacts DirMain
  Auditor AudSpec AudFacts Client ClientSpec ClientFacts JointFacts Prop_Proof Prop_PAD Prop_Directory Prop_Auditor Prop_Client.
Import ListNotations.

Section Spec.
  Context {C : Crypto}.

  (** The tree hash in the STR has the length of a hash.  Nothing in the code
      checks this on receipt (merkletree/str.go:66-75 concatenates). *)
  Definition hash_sized (s : DirSTR) : Prop := exists b, d_body s = Some b /\ length (s_hash b) = 32.

  (** A user who stops when a check fails: in each interaction the answer passes
      [HandleResponse], or at least the verified STR stays what it was. *)
  (** no line of its own in /repo: specification of C83 over protocol/client/consistencychecks.go:68-127 and protocol/auditlog/auditlog.go:70-193 *)
  Fixpoint careful (cc : Checks) (l : list interaction) (cc' : Checks) : Prop :=
    match l with
    | [] => cc' = cc
    | (t, msg, uname, key) :: l' => exists cc1 err, HandleResponse cc t msg uname key = Ok (cc1, err) /\
        (err = None \/ au_str (cc_aud cc1) = au_str (cc_aud cc)) /\ careful cc1 l' cc'
    end.

  (** At some point of the run the answer to a request about [uname], with
      first path [ap] and first STR [s], passed all checks. *)
  (** no line of its own in /repo: specification of C83 over protocol/client/consistencychecks.go:68-127 and protocol/auditlog/auditlog.go:70-193 *)
  Fixpoint accepted (cc : Checks) (l : list interaction) (uname : bytes) (ap : AuthPath) (s : DirSTR) : Prop :=
    match l with
    | [] => False
    | (t, msg, u, key) :: l' => exists cc1 err, HandleResponse cc t msg u key = Ok (cc1, err) /\
        ((err = None /\ u = uname /\ answer msg ap s) \/ accepted cc1 l' uname ap s)
    end.

  (** What the path says: the key, or that there is none.  The shape conditions
      are those of C11 and C12, which the code does not check. *)
  (** no line of its own in /repo: specification of C83 over protocol/client/consistencychecks.go:68-127 and protocol/auditlog/auditlog.go:70-193 *)
  Definition says (ap : AuthPath) (v : option bytes) : Prop :=
    pruned_ok ap /\ exists leaf, ap_leaf ap = Some leaf /\
    match v with
    | Some k => ProofType ap = Ok ProofOfInclusion /\ obytes (pn_value leaf) = k /\ pn_empty leaf = false /\
        length (ap_nonce ap) = 32 /\ exists c, pn_com leaf = Some c /\ length (c_salt c) = 32
    | None => ProofType ap = Ok ProofOfAbsence /\ absence_shape ap leaf
    end.

  (** The STRs a user received. *)
  (** no line of its own in /repo: specification of C83 over protocol/client/consistencychecks.go:68-127 and protocol/auditlog/auditlog.go:70-193 *)
  Definition seen (l : list interaction) : list DirSTR :=
    flat_map (fun x => match r_df (snd (fst (fst x))) with
                       | Some (DProof (Some df)) => flat_map (fun o => match o with Some s => [s] | None => [] end) (dp_str df)
                       | _ => [] end) l.

  (** The value in the leaf of a path. *)
  (** no line of its own in /repo: specification of C83 over protocol/client/consistencychecks.go:68-127 and protocol/auditlog/auditlog.go:70-193 *)
  Definition leaf_value (ap : AuthPath) : bytes := match ap_leaf ap with Some leaf => obytes (pn_value leaf) | None => [] end.

  (** What can be held against the server (or its algorithms): two signatures,
      among those of the STRs [held], with one hash; one signature under two
      different byte strings; two VRF outputs for one name; or two different
      inputs with one hash in the two authentication paths. *)
  (** no line of its own in /repo: specification of C83 over protocol/client/consistencychecks.go:68-127 and protocol/auditlog/auditlog.go:70-193 *)
  Definition evidence (pk : bytes) (held : list DirSTR) (uname : bytes) (ap1 ap2 : AuthPath) : Prop :=
    collision_between (map sig_of held) (map sig_of held) \/
    (exists x y bx by_, In x held /\ In y held /\ sig_of x = sig_of y /\ signed_by pk x /\ signed_by pk y /\
       DirSTR_Serialize x = Ok bx /\ DirSTR_Serialize y = Ok by_ /\ bx <> by_) \/
    (exists vpk, vrf_verify vpk uname (ap_lookup ap1) (ap_vrf ap1) = true /\
       vrf_verify vpk uname (ap_lookup ap2) (ap_vrf ap2) = true /\ ap_lookup ap1 <> ap_lookup ap2) \/
    collision_between (verify_inputs ap1 uname (leaf_value ap1)) (verify_inputs ap2 uname (leaf_value ap2)).

  (** crypto/vrf/vrf.go:177 rejects keys that are not 32 bytes long. *)
  Definition vrf_keys_sized : Prop := forall pk m i p, vrf_verify pk m i p = true -> length pk = 32.
End Spec.

Lemma map_Some_inj {A} : forall l l' : list A, map Some l = map Some l' -> l = l'.
Proof. induction l as [|x l IH]; intros [|y l'] H; try discriminate H; [reflexivity|]. cbn [map] in H. injection H as -> H. f_equal. auto. Qed.
Lemma nth_error_skipn_add {A} (l : list A) : forall a i, nth_error (skipn a l) i = nth_error l (a + i).
Proof. induction l as [|x l IH]; intros [|a] i; cbn; auto. destruct i; reflexivity. Qed.

Section Facts.
  Context {C : Crypto} (OK : CryptoOk C).

  (** *** One user *)
  Lemma aph_len : forall depth bits pruned h0 h, length h0 = 32 -> aph_loop bits pruned depth h0 = Ok h -> length h = 32.
  Proof.
    induction depth as [|n IH]; intros bits pruned h0 h L H; cbn [aph_loop] in H; [injection H as <-; exact L|].
    destruct (index bits n) as [b|]; cbn [bind] in H; [|discriminate H].
    destruct (index pruned n) as [p|]; cbn [bind] in H; [|discriminate H].
    apply IH in H; auto. destruct b; apply (ok_shake_len C OK).
  Qed.
  Lemma authPathHash_len ap leaf h : authPathHash ap leaf = Ok h -> length h = 32.
  Proof.
    unfold authPathHash, pn_hash. destruct (pn_pre (ap_nonce ap) leaf) as [x|]; cbn [bind]; [|discriminate].
    apply aph_len, (ok_shake_len C OK).
  Qed.
  Lemma verify_sized ap k v h : Verify ap k v h = Ok None -> length h = 32.
  Proof.
    unfold Verify. intros H. destruct (ProofType ap) as [pt|]; cbn [bind] in H; [|discriminate H].
    destruct (ap_leaf ap) as [leaf|]; [|discriminate H].
    assert (T : (do h0 <- authPathHash ap leaf; Ok (if beq h h0 then None else Some ErrUnequalTreeHashes)) = Ok None -> length h = 32).
    { clear H. destruct (authPathHash ap leaf) as [h0|] eqn:A; cbn [bind]; [|discriminate].
      destruct (beq_spec h h0) as [->|]; [|discriminate]. intros _. exact (authPathHash_len ap leaf h0 A). }
    destruct pt.
    - destruct (match_bits _ _ _ _) as [[|]|]; cbn [bind] in H; try discriminate H.
      destruct (pn_value leaf); [discriminate H|]. exact (T H).
    - destruct (negb _); [discriminate H|]. destruct (pn_com leaf) as [c|]; [|discriminate H].
      destruct (Commit_Verify _ _); [|discriminate H]. exact (T H).
  Qed.

  Lemma accepted_facts cc t msg uname key cc' ap s : cc_useTBs cc = true ->
    HandleResponse cc t msg uname key = Ok (cc', None) -> answer msg ap s ->
    au_str (cc_aud cc') = s /\ next_str (cc_aud cc) s /\
    exists pol b leaf v, d_pol s = Some pol /\ d_body s = Some b /\ ap_leaf ap = Some leaf /\
      vrf_verify (pol_vrf pol) uname (ap_lookup ap) (ap_vrf ap) = true /\ Verify ap uname v (s_hash b) = Ok None.
  Proof.
    intros U H A.
    assert (AC : acceptable cc t msg uname key) by (apply handle_accepts_iff; eauto).
    destruct (C31_accepted_state C _ _ _ _ _ _ H) as (ap' & s' & A' & N & CA). rewrite CA. cbn [au_str].
    destruct A as (df & aps & strs & D & HA & HS). destruct A' as (df' & aps' & strs' & D' & HA' & HS').
    rewrite D in D'. injection D' as <-. rewrite HS in HS'. injection HS' as <- _. split; auto. split; auto.
    destruct AC as (df1 & ap1 & aps1 & s1 & strs1 & pol & b & leaf & pt & D1 & HA1 & HS1 & _ & Q1 & Q2 & Q3 & _ & Q4 & Q5 & _).
    rewrite D in D1. injection D1 as <-. rewrite HA in HA1. injection HA1 as <- _. rewrite HS in HS1. injection HS1 as <- _. eauto 12.
  Qed.

  (** A careful user walks along one signed chain of well-sized STRs. *)
  Lemma careful_chain : forall l cc cc', cc_useTBs cc = true -> careful cc l cc' ->
    exists chain, follows (au_key (cc_aud cc)) (au_str (cc_aud cc)) chain /\ Forall hash_sized chain /\
      au_str (cc_aud cc') = last chain (au_str (cc_aud cc)) /\ au_key (cc_aud cc') = au_key (cc_aud cc) /\
      length chain <= length l /\ incl chain (seen l) /\
      (forall uname ap s, accepted cc l uname ap s -> In s (au_str (cc_aud cc) :: chain) /\
         exists pol b leaf v, d_pol s = Some pol /\ d_body s = Some b /\ ap_leaf ap = Some leaf /\
           vrf_verify (pol_vrf pol) uname (ap_lookup ap) (ap_vrf ap) = true /\ Verify ap uname v (s_hash b) = Ok None).
  Proof.
    induction l as [|[[[t msg] u] key] l IH]; intros cc cc' U K; cbn [careful] in K.
    - subst cc'. exists []. cbn. split; [exact I|]. split; [constructor|]. split; auto. split; auto. split; [lia|]. split; [intros ? []|]. tauto.
    - destruct K as (cc1 & err & H & E & K). destruct (handle_state _ _ _ _ _ _ _ H) as (UT & AK & D & _).
      destruct (IH cc1 cc' ltac:(congruence) K) as (chain & F & SZ & L & KK & LL & IN & ACC).
      rewrite AK in F, KK.
      assert (SEEN : forall s, In s (seen l) -> In s (seen ((t, msg, u, key) :: l))).
      { intros s Q. unfold seen. cbn [flat_map]. apply in_or_app. right. exact Q. }
      assert (DEC : au_str (cc_aud cc1) = au_str (cc_aud cc) \/ au_str (cc_aud cc1) <> au_str (cc_aud cc)).
      { destruct (dir_eqb (au_str (cc_aud cc1)) (au_str (cc_aud cc))) eqn:Q; [left; apply dir_eqb_eq; exact Q|].
        right. intro X. apply dir_eqb_eq in X. congruence. }
      destruct DEC as [SAME|NEW].
      + rewrite SAME in *. exists chain. split; auto. split; auto. split; auto. split; auto. cbn [length]. split; [lia|].
        split; [intros s Q; auto|].
        intros uname ap s (cc2 & err2 & H2 & Q). rewrite H in H2. injection H2 as <- <-.
        destruct Q as [(-> & -> & A)|Q]; [|auto]. destruct (accepted_facts _ _ _ _ _ _ _ _ U H A) as (S1 & _ & S3).
        split; [left; congruence|exact S3].
      + destruct E as [->|E]; [|contradiction].
        destruct D as [->|(ap & s & N & E & (df & strs & D1 & D2) & (A & _))]; [congruence|].
        destruct (accepted_facts _ _ _ _ _ _ _ _ U H A) as (S1 & _ & pol & b & leaf & v & P & B & LF & V & W).
        rewrite E in *. exists (s :: chain). destruct N as (NB & [N|(N1 & N2)]); [congruence|].
        split; [cbn [follows]; auto|]. split; [constructor; [exists b; split; [exact B|eapply verify_sized; eauto]|exact SZ]|].
        split; [rewrite last_cons; exact L|]. split; auto. cbn [length]. split; [lia|]. split.
        { intros x [<-|Q]; [|auto]. unfold seen. cbn [flat_map fst snd]. apply in_or_app. left. rewrite D1, D2. left. reflexivity. }
        intros uname ap' s' (cc2 & err2 & H2 & Q). rewrite H in H2. injection H2 as <- <-.
        destruct Q as [(_ & <- & A')|Q].
        * destruct (accepted_facts _ _ _ _ _ _ _ _ U H A') as (S1' & _ & S3). split; [right; left; congruence|exact S3].
        * destruct (ACC _ _ _ Q) as (I1 & I2). split; [right; exact I1|exact I2].
  Qed.

  (** *** Two chains *)
  (** no line of its own in /repo: specification of C83 over protocol/client/consistencychecks.go:68-127 and protocol/auditlog/auditlog.go:70-193 *)
  Definition chained (pk : bytes) (X : list DirSTR) : Prop :=
    (forall k x, nth_error X k = Some x -> epoch_of x = Some (N.of_nat k)) /\ (N.of_nat (length X) < 2 ^ 64)%N /\
    forall k x, nth_error X (S k) = Some x -> signed_by pk x /\ exists x', nth_error X k = Some x' /\ extends x x'.
  (** no line of its own in /repo: specification of C83 over protocol/client/consistencychecks.go:68-127 and protocol/auditlog/auditlog.go:70-193 *)
  Definition sized (X : list DirSTR) : Prop := forall k x, nth_error X (S k) = Some x -> hash_sized x.

  Lemma follows_chained pk s0 c : epoch_of s0 = Some 0%N -> (N.of_nat (length c) < 2 ^ 64 - 1)%N -> follows pk s0 c -> chained pk (s0 :: c).
  Proof.
    intros E B F. split; [|split].
    - apply (numbered_chain pk); auto. lia.
    - cbn [length]. lia.
    - intros k x H. cbn [nth_error] in H. apply nth_error_split in H as (c1 & c2 & -> & L).
      apply follows_app in F as (_ & S1 & X1 & _). split; [exact S1|]. exists (last c1 s0). split; [|exact X1].
      rewrite <- L. clear. destruct c1 as [|y c1] using rev_ind; [reflexivity|].
      rewrite last_last, app_length. cbn [length]. rewrite Nat.add_1_r. cbn [nth_error]. rewrite <- app_assoc.
      rewrite nth_error_app2 by lia. rewrite Nat.sub_diag. reflexivity.
  Qed.
  Lemma Forall_sized s0 c : Forall hash_sized c -> sized (s0 :: c).
  Proof. intros F k x H. cbn [nth_error] in H. apply nth_error_In in H. rewrite Forall_forall in F. auto. Qed.

  (** no line of its own in /repo: specification of C83 over protocol/client/consistencychecks.go:68-127 and protocol/auditlog/auditlog.go:70-193 *)
  Definition blame (pk : bytes) (X Y : list DirSTR) : Prop :=
    collision_between (map sig_of X) (map sig_of Y) \/
    (exists x y bx by_, In x X /\ In y Y /\ sig_of x = sig_of y /\ signed_by pk x /\ signed_by pk y /\
       DirSTR_Serialize x = Ok bx /\ DirSTR_Serialize y = Ok by_ /\ bx <> by_).

  Lemma ser_same pk X Y k x y : chained pk X -> chained pk Y -> sized X -> sized Y ->
    nth_error X (S k) = Some x -> nth_error Y (S k) = Some y -> DirSTR_Serialize x = DirSTR_Serialize y ->
    exists bx by_ px py, d_body x = Some bx /\ d_body y = Some by_ /\ d_pol x = Some px /\ d_pol y = Some py /\
      s_hash bx = s_hash by_ /\ s_phash bx = s_phash by_ /\ Policies_Serialize px = Policies_Serialize py.
  Proof.
    intros (NX & LX & CX) (NY & LY & CY) SX SY HX HY E.
    assert (SZ : forall Z z, (forall k x, nth_error Z k = Some x -> epoch_of x = Some (N.of_nat k)) -> (N.of_nat (length Z) < 2 ^ 64)%N ->
      (forall k x, nth_error Z (S k) = Some x -> signed_by pk x /\ exists x', nth_error Z k = Some x' /\ extends x x') ->
      sized Z -> nth_error Z (S k) = Some z -> exists b p, d_body z = Some b /\ d_pol z = Some p /\ str_sizes b /\
        DirSTR_Serialize z = Ok (STR_Serialize Policies_Serialize b p)).
    { clear - OK. intros Z z N L Ch SS H. destruct (SS k z H) as (b & B & LH). destruct (Ch k z H) as ((b1 & bs & B1 & SB & _) & z' & H' & EX).
      apply extends_epoch in EX as (b2 & b' & B2 & B' & Q1 & Q2 & Q3). rewrite B in B1, B2. injection B1 as <-. injection B2 as <-.
      pose proof SB as SB'. unfold DirSTR_Serialize in SB. rewrite B in SB. destruct (d_pol z) as [p|] eqn:P; [|discriminate SB].
      exists b, p. split; auto. split; auto. split.
      - split; [exact LH|]. split; [rewrite Q3; apply (ok_shake_len C OK)|].
        assert (L1 : S k < length Z) by (apply nth_error_Some; congruence).
        pose proof (N _ _ H) as E1. pose proof (N _ _ H') as E2. unfold epoch_of in E1, E2. rewrite B in E1. rewrite B' in E2.
        injection E1 as E1. injection E2 as E2. rewrite Q2, E1, E2. lia.
      - unfold DirSTR_Serialize. rewrite B, P. reflexivity. }
    destruct (SZ X x NX LX CX SX HX) as (bx & px & B1 & P1 & Z1 & S1).
    destruct (SZ Y y NY LY CY SY HY) as (by_ & py & B2 & P2 & Z2 & S2).
    exists bx, by_, px, py. split; auto. split; auto. split; auto. split; auto.
    assert (OKI : forall a b : bytes, Ok a = Ok b -> a = b) by (intros a b Q; injection Q; auto).
    rewrite S1, S2 in E. apply OKI in E.
    assert (X1 : same_contents (bx, Policies_Serialize px) (by_, Policies_Serialize py)).
    { apply (C15_str_serialization_unambiguous _ (fun x => x)); auto. }
    destruct X1 as (A1 & A2 & A3 & A4 & A5). cbn [fst snd] in *. auto.
  Qed.

  Lemma agree_down pk X Y : chained pk X -> chained pk Y -> sized X -> sized Y ->
    forall n x y, nth_error X n = Some x -> nth_error Y n = Some y -> sig_of x = sig_of y ->
    (forall k a b, k <= n -> nth_error X k = Some a -> nth_error Y k = Some b ->
       sig_of a = sig_of b /\ (0 < k -> DirSTR_Serialize a = DirSTR_Serialize b)) \/ blame pk X Y.
  Proof.
    intros CX CY SX SY. induction n as [|n IH]; intros x y HX HY E.
    - left. intros k a b K Ha Hb. assert (k = 0) by lia. subst k. split; [congruence|lia].
    - destruct CX as (NX & LX & CX') eqn:EX. destruct CY as (NY & LY & CY') eqn:EY.
      destruct (CX' n x HX) as (S1 & x' & HX' & X1). destruct (CY' n y HY) as (S2 & y' & HY' & Y1).
      pose proof S1 as (b1 & bs1 & B1 & Q1 & _). pose proof S2 as (b2 & bs2 & B2 & Q2 & _).
      destruct (beq_spec bs1 bs2) as [EB|NB].
      2:{ right. right. exists x, y, bs1, bs2. split; [exact (nth_error_In _ _ HX)|]. split; [exact (nth_error_In _ _ HY)|].
          split; [exact E|]. split; [exact S1|]. split; [exact S2|]. split; [exact Q1|]. split; [exact Q2|exact NB]. }
      assert (ES : DirSTR_Serialize x = DirSTR_Serialize y) by congruence.
      destruct (ser_same pk X Y n x y CX CY SX SY HX HY ES) as (c1 & c2 & p1 & p2 & D1 & D2 & _ & _ & _ & PH & _).
      apply extends_epoch in X1 as (e1 & f1 & E1 & F1 & _ & _ & G1). apply extends_epoch in Y1 as (e2 & f2 & E2 & F2 & _ & _ & G2).
      rewrite D1 in E1. injection E1 as <-. rewrite D2 in E2. injection E2 as <-. rewrite G1, G2 in PH.
      destruct (beq_spec (s_sig f1) (s_sig f2)) as [EF|NF].
      2:{ right. left. exists (s_sig f1), (s_sig f2). split; [|split; [|split; [exact NF|]]].
          - apply in_map_iff. exists x'. split; [unfold sig_of; rewrite F1; reflexivity|eapply nth_error_In; eauto].
          - apply in_map_iff. exists y'. split; [unfold sig_of; rewrite F2; reflexivity|eapply nth_error_In; eauto].
          - unfold Digest in PH. cbn [concat] in PH. rewrite !app_nil_r in PH. exact PH. }
      destruct (IH x' y' HX' HY') as [A|A]; [unfold sig_of; rewrite F1, F2; exact EF| |right; exact A].
      left. intros k a b K Ha Hb. destruct (Nat.eq_dec k (S n)) as [->|NE].
      + rewrite HX in Ha. rewrite HY in Hb. injection Ha as <-. injection Hb as <-. split; [exact E|]. intros _. exact ES.
      + apply A; auto. lia.
  Qed.

  Lemma blame_held pk X Y held u a1 a2 : incl X held -> incl Y held -> blame pk X Y -> evidence pk held u a1 a2.
  Proof.
    intros IX IY [(x & y & Hx & Hy & Q)|(x & y & bx & by_ & Hx & Hy & Q)].
    - left. exists x, y. split; [|split; [|exact Q]].
      + apply in_map_iff in Hx as (z & <- & Hz). apply in_map. auto.
      + apply in_map_iff in Hy as (z & <- & Hz). apply in_map. auto.
    - right. left. exists x, y, bx, by_. split; auto.
  Qed.

  (** *** A user and the log *)
  Lemma anchored pk X rec log id a b cc msg n :
    chained pk rec -> rec <> [] -> serves log id rec -> nth_error X n = Some (au_str (cc_aud cc)) -> chained pk X ->
    (N.of_nat (S n) < 2 ^ 64)%N ->
    GetObservedSTRs log id a b = Ok msg -> CheckEquivocation cc msg = Ok None ->
    exists y, nth_error rec n = Some y /\ (sig_of (au_str (cc_aud cc)) = sig_of y \/ collision_between (map sig_of X) (map sig_of rec)).
  Proof.
    intros (NR & LR & CR) NE SV HX (NX & LX & _) BN G K. rewrite <- (N2Nat.id a), <- (N2Nat.id b), (SV (N.to_nat a) (N.to_nat b)) in G.
    set (a' := N.to_nat a) in *. set (b' := N.to_nat b) in *. clearbody a' b'. injection G as <-.
    apply C40_accepts_iff in K as (_ & s1 & l & D & _ & _ & L).
    destruct (Nat.ltb_spec b' a') as [O1|O1]; cbn [orb] in D; [discriminate D|].
    destruct (Nat.leb_spec (length rec) b') as [O2|O2]; [discriminate D|].
    cbn [NewSTRHistoryRange r_df] in D. injection D as D.
    assert (D' : firstn (S b' - a') (skipn a' rec) = s1 :: l).
    { apply map_Some_inj. exact D. }
    assert (Z : nth_error rec b' = Some (last l s1)).
    { assert (LE : length (s1 :: l) = S b' - a') by (rewrite <- D', firstn_length, skipn_length; lia).
      assert (N1 : nth_error (s1 :: l) (length l) = Some (last l s1)).
      { clear. destruct l as [|z l] using rev_ind; [reflexivity|]. rewrite last_last, app_length. cbn [length]. rewrite Nat.add_1_r. cbn [nth_error].
        rewrite nth_error_app2 by lia. rewrite Nat.sub_diag. reflexivity. }
      rewrite <- D' in N1. cbn [length] in LE. rewrite nth_error_firstn_lt in N1 by lia. rewrite nth_error_skipn_add in N1.
      replace (a' + length l) with b' in N1 by lia. exact N1. }
    pose proof (NR _ _ Z) as EZ. pose proof (NX _ _ HX) as EX.
    destruct L as [L|(_ & L)].
    - rewrite L in EZ, Z. rewrite EX in EZ. injection EZ as EZ. apply Nat2N.inj in EZ. subst b'. exists (au_str (cc_aud cc)). auto.
    - pose proof L as L'. apply extends_epoch in L as (c1 & c2 & B1 & B2 & Q1 & _ & Q3).
      unfold epoch_of in EZ, EX. rewrite B1 in EZ. rewrite B2 in EX. injection EZ as EZ. injection EX as EX.
      assert (Eb : b' = S n).
      { rewrite EZ, EX in Q1. unfold add64, two64 in Q1. rewrite N.mod_small in Q1 by lia. lia. }
      subst b'. destruct (CR n _ Z) as (_ & y & Y & XY). exists y. split; [exact Y|].
      apply extends_epoch in XY as (c3 & c4 & B3 & B4 & _ & _ & Q4). rewrite B1 in B3. injection B3 as <-. rewrite Q3 in Q4.
      destruct (beq_spec (s_sig c2) (s_sig c4)) as [E|NEQ]; [left; unfold sig_of; rewrite B2, B4; exact E|right].
      exists (s_sig c2), (s_sig c4). split; [|split; [|split; [exact NEQ|]]].
      + apply in_map_iff. exists (au_str (cc_aud cc)). split; [unfold sig_of; rewrite B2; reflexivity|eapply nth_error_In; eauto].
      + apply in_map_iff. exists y. split; [unfold sig_of; rewrite B4; reflexivity|eapply nth_error_In; eauto].
      + unfold Digest in Q4. cbn [concat] in Q4. rewrite !app_nil_r in Q4. exact Q4.
  Qed.

  (** *** Two users with the same STR *)
  Lemma same_root uname ap1 ap2 v1 v2 w1 w2 vpk h :
    vrf_verify vpk uname (ap_lookup ap1) (ap_vrf ap1) = true -> vrf_verify vpk uname (ap_lookup ap2) (ap_vrf ap2) = true ->
    Verify ap1 uname w1 h = Ok None -> Verify ap2 uname w2 h = Ok None -> says ap1 v1 -> says ap2 v2 ->
    v1 = v2 \/ (exists vpk, vrf_verify vpk uname (ap_lookup ap1) (ap_vrf ap1) = true /\
       vrf_verify vpk uname (ap_lookup ap2) (ap_vrf ap2) = true /\ ap_lookup ap1 <> ap_lookup ap2) \/
    collision_between (verify_inputs ap1 uname (leaf_value ap1)) (verify_inputs ap2 uname (leaf_value ap2)).
  Proof.
    intros V1 V2 W1 W2 (P1 & l1 & L1 & S1) (P2 & l2 & L2 & S2). unfold leaf_value. rewrite L1, L2.
    apply (verify_leaf_value _ _ _ _ _ L1) in W1. apply (verify_leaf_value _ _ _ _ _ L2) in W2.
    destruct (beq_spec (ap_lookup ap1) (ap_lookup ap2)) as [EI|NI]; [|right; left; exists vpk; auto].
    pose proof (ok_vrf_verify_len C OK _ _ _ _ V1) as LI. pose proof (ok_vrf_verify_len C OK _ _ _ _ V2) as LI2.
    destruct v1 as [k1|], v2 as [k2|].
    - destruct S1 as (T1 & K1 & F1 & _ & c1 & C1 & Z1). destruct S2 as (T2 & K2 & F2 & _ & c2 & C2 & Z2).
      destruct (C11_inclusion_binds C OK ap1 ap2 l1 l2 c1 c2 uname _ _ h W1 W2 EI LI L1 L2 T1 T2 F1 F2 C1 C2 ltac:(congruence) P1 P2) as [Q|Q].
      + left. f_equal. cbn [obytes] in Q. congruence.
      + right. right. exact Q.
    - destruct S1 as (T1 & K1 & F1 & N1 & _). destruct S2 as (T2 & A2). right. right.
      exact (C12_not_both C OK ap1 ap2 l1 l2 uname _ _ h W1 W2 EI LI L1 L2 T1 T2 F1 N1 A2 P1 P2).
    - destruct S1 as (T1 & A1). destruct S2 as (T2 & K2 & F2 & N2 & _). right. right.
      destruct (C12_not_both C OK ap2 ap1 l2 l1 uname _ _ h W2 W1 (eq_sym EI) LI2 L2 L1 T2 T1 F2 N2 A1 P2 P1) as (x & y & Hx & Hy & Q1 & Q2).
      exists y, x. split; [exact Hy|]. split; [exact Hx|]. split; [congruence|congruence].
    - left. reflexivity.
  Qed.

  (** The VRF key is read off the serialized policies. *)
  Lemma vrf_key_same p1 p2 : length (pol_vrf p1) = 32 -> length (pol_vrf p2) = 32 ->
    Policies_Serialize p1 = Policies_Serialize p2 -> pol_vrf p1 = pol_vrf p2.
  Proof.
    intros L1 L2 E. unfold Policies_Serialize in E. rewrite !app_assoc in E.
    pose proof (f_equal (@length _) E) as LL. rewrite !app_length, !ULongToBytes_length, L1, L2 in LL.
    rewrite <- !app_assoc in E. rewrite (app_assoc (pol_version p1)), (app_assoc (pol_version p2)) in E.
    apply app_inj_len in E as (_ & E); [|rewrite !app_length; lia].
    apply app_inj_len in E as (E & _); [exact E|congruence].
  Qed.
End Facts.
