(** Properties of the client's consistency checks (C30-C36).

    Reading guide ([ClientSpec.v], [AudSpec.v], [DirSpec.v]).  [acceptable cc t
    msg name key]: what an answer must look like to be accepted; [next_str a s]:
    [s] is the verified STR or a signed, hash-chained successor of it; [answer
    msg ap s]: the first path and STR of the answer; [client_run cc l]: the
    client after the interactions [l] with a possibly malicious server. *)
From Coq Require Import List NArith ZArith Lia Bool Arith.
From Verif Require Import Base Utils Crypto Tree TreeFacts TreeSpec SoundFacts STR PAD PADSpec PADFacts Protocol Directory DirSpec DirFacts DirMain
  Auditor AudSpec AudFacts Client ClientSpec ClientFacts JointFacts Prop_Proof Prop_Directory.
Import ListNotations.


(** ** C30 *)

(** Client and directory, both following the code: whatever happens at the
    directory in between, as long as the client does not miss an epoch, no call
    crashes, every answer is accepted except that a key given by the user which
    differs from the one registered is reported as such, and the client ends with
    the directory's STR. *)
Theorem C30_honest_runs : forall (C : Crypto), CryptoOk C ->
  forall dl0 vk sk size r1 r2 d0 cc0 ops,
  Directory_New dl0 vk sk size true r1 r2 = Ok d0 ->
  Client_New (LatestSTR d0) true (sign_pub sk) = Ok cc0 ->
  prompt 0 ops -> Forall wf_contact ops -> few (server_ops ops) ->
  vrf_good vk (flat_map contact_names ops ++ names_of (server_ops ops)) ->
  exists d cc, joint_run d0 cc0 ops = Ok (d, cc, outcomes [] ops) /\
    (forall l op, ops = l ++ [op] -> is_contact op = true -> au_str (cc_aud cc) = LatestSTR d).
Proof.
  intros C OK dl0 vk sk size r1 r2 d0 cc0 ops N0 CN PR W F SP.
  assert (J0 : joint_inv dl0 vk sk size r1 r2 [] d0 cc0 0).
  { unfold Client_New in CN. injection CN as <-. constructor; cbn; auto.
    - exists d0. auto.
    - intros n tb X. discriminate X. }
  destruct (joint_run_inv OK dl0 vk sk size r1 r2 ops [] d0 cc0 0 J0) as (d & cc & lag & E & J & L); auto.
  exists d, cc. split; auto. intros l op X IC. specialize (L l op X IC). subst lag. apply (ji_str _ _ _ _ _ _ _ _ _ _ J).
Qed.
Print Assumptions C30_honest_runs.

(** ** C31 *)

(** Acceptance, exactly. *)
Theorem C31_accepts_iff : forall (C : Crypto) cc t msg uname key,
  cc_useTBs cc = true ->
  (exists cc', HandleResponse cc t msg uname key = Ok (cc', None)) <-> acceptable cc t msg uname key.
Proof. intros C. exact handle_accepts_iff. Qed.
Print Assumptions C31_accepts_iff.

(** ... where [next_str] and the promise refer to the pinned signing key, and
    the accepted STR becomes the verified one. *)
Theorem C31_accepted_state : forall (C : Crypto) cc t msg uname key cc',
  HandleResponse cc t msg uname key = Ok (cc', None) ->
  exists ap s, answer msg ap s /\ next_str (cc_aud cc) s /\ cc_aud cc' = mkAud (au_key (cc_aud cc)) s.
Proof.
  intros C cc t msg uname key cc' H. destruct (handle_state cc t msg uname key cc' None H) as (_ & K & D & A).
  destruct (A eq_refl) as (ap & s & AN & E). exists ap, s. split; auto.
  assert (CA : cc_aud cc' = mkAud (au_key (cc_aud cc)) s) by (destruct (cc_aud cc'); cbn in *; congruence).
  split; auto.
  destruct D as [->|(ap' & s' & N & E' & _)]; [|congruence].
  (* an accepted answer repeats the verified STR *)
  unfold HandleResponse in H. destruct (Validate msg) as [[?|]|]; cbn [bind] in H; try discriminate H.
  destruct (_ || _ || _ || _); [|discriminate H]. destruct AN as (df & aps & strs & D & HA & HS). rewrite D in H.
  destruct (updateSTR cc t df) as [[cc1 [e|]]|] eqn:U; cbn [bind] in H; try discriminate H.
  apply update_str_ok in U. destruct U as (_ & s1 & strs1 & HS1 & N1 & _). rewrite HS in HS1. injection HS1 as <- _. exact N1.
Qed.
Print Assumptions C31_accepted_state.

(** ** C32 *)
Theorem C32_step : forall (C : Crypto) cc t msg uname key cc' err,
  HandleResponse cc t msg uname key = Ok (cc', err) ->
  au_key (cc_aud cc') = au_key (cc_aud cc) /\
  (au_str (cc_aud cc') = au_str (cc_aud cc) \/
   (signed_by (au_key (cc_aud cc)) (au_str (cc_aud cc')) /\ extends (au_str (cc_aud cc')) (au_str (cc_aud cc)))) /\
  (* the check of the STR fails: nothing changes *)
  (forall df s strs, r_df msg = Some (DProof (Some df)) -> dp_str df = s :: strs ->
     AuditDirectory (cc_aud cc) [s] <> Ok None -> cc' = cc) /\
  (* any other check fails: promises and bindings do not change *)
  (err <> None -> cc_tbs cc' = cc_tbs cc /\ cc_bindings cc' = cc_bindings cc).
Proof.
  intros C cc t msg uname key cc' err H. destruct (handle_state _ _ _ _ _ _ _ H) as (_ & K & D & _). split; auto. split; [|split].
  - destruct D as [->|(ap & s & (_ & N) & E & _)]; [auto|]. rewrite E. destruct N as [N|N]; [left; congruence|auto].
  - intros df s strs Df HS NA. destruct D as [->|(ap & s' & N & _ & (df' & strs' & Df' & HS') & _)]; auto.
    exfalso. rewrite Df in Df'. injection Df' as <-. rewrite HS in HS'. injection HS' as -> _. apply NA.
    apply audit_dir_ok. exists s', []. destruct N as (N1 & N2). split; auto. split; auto. split; auto. exact I.
  - intro E. destruct D as [->|(ap & s & _ & _ & _ & D)]; auto. destruct err; [exact D|congruence].
Qed.
Print Assumptions C32_step.

(** Over any sequence of interactions, the verified STRs form one signed hash
    chain that starts at the pinned STR. *)
Theorem C32_one_chain : forall (C : Crypto) l cc cc',
  client_run cc l = Ok cc' ->
  exists chain, follows (au_key (cc_aud cc)) (au_str (cc_aud cc)) chain /\
    au_str (cc_aud cc') = last chain (au_str (cc_aud cc)) /\ au_key (cc_aud cc') = au_key (cc_aud cc) /\
    length chain <= length l.
Proof.
  intros C l. induction l as [|[[[t msg] uname] key] l IH]; intros cc cc' H; cbn [client_run] in H.
  - injection H as <-. exists []. cbn. auto.
  - destruct (HandleResponse cc t msg uname key) as [[cc1 err]|] eqn:E; cbn [bind] in H; [|discriminate H].
    destruct (IH cc1 cc' H) as (chain & F & L & K & LL).
    destruct (C32_step C _ _ _ _ _ _ _ E) as (K1 & S & _). rewrite K1 in *. destruct S as [S|(S1 & S2)].
    + exists chain. rewrite S in *. cbn [length]. auto.
    + exists (au_str (cc_aud cc1) :: chain). rewrite last_cons. cbn [follows length]. repeat (split; auto). lia.
Qed.
Print Assumptions C32_one_chain.

(** ** C33 *)

(** Well-formedness of a path that the code does not check (see C11, C12). *)
Definition binding_shape (ap : AuthPath) : Prop :=
  pruned_ok ap /\ exists leaf c, ap_leaf ap = Some leaf /\ pn_com leaf = Some c /\ pn_empty leaf = false /\ length (c_salt c) = 32.

(** Two clients with the same verified STR accept keys for one name from proofs
    of inclusion: the keys are equal, or two VRF outputs for the name, or a hash
    collision between the two proofs is exhibited. *)
Theorem C33_conflict_exposes : forall (C : Crypto), CryptoOk C ->
  forall cc1 cc2 t1 t2 m1 m2 uname k1 k2 cc1' cc2' ap1 ap2 s1 s2 l1 l2,
  cc_useTBs cc1 = true -> cc_useTBs cc2 = true ->
  HandleResponse cc1 t1 m1 uname k1 = Ok (cc1', None) -> HandleResponse cc2 t2 m2 uname k2 = Ok (cc2', None) ->
  answer m1 ap1 s1 -> answer m2 ap2 s2 ->
  au_str (cc_aud cc1') = au_str (cc_aud cc2') ->
  ap_leaf ap1 = Some l1 -> ap_leaf ap2 = Some l2 ->
  ProofType ap1 = Ok ProofOfInclusion -> ProofType ap2 = Ok ProofOfInclusion ->
  binding_shape ap1 -> binding_shape ap2 ->
  obytes (pn_value l1) = obytes (pn_value l2) \/
  (exists vpk, vrf_verify vpk uname (ap_lookup ap1) (ap_vrf ap1) = true /\
     vrf_verify vpk uname (ap_lookup ap2) (ap_vrf ap2) = true /\ ap_lookup ap1 <> ap_lookup ap2) \/
  collision_between (verify_inputs ap1 uname (obytes (pn_value l1))) (verify_inputs ap2 uname (obytes (pn_value l2))).
Proof.
  intros C OK cc1 cc2 t1 t2 m1 m2 uname k1 k2 cc1' cc2' ap1 ap2 s1 s2 l1 l2 U1 U2 H1 H2 A1 A2 ES L1 L2 P1 P2 B1 B2.
  assert (ST : forall cc t m k cc' ap s l, cc_useTBs cc = true -> HandleResponse cc t m uname k = Ok (cc', None) ->
     answer m ap s -> ap_leaf ap = Some l -> ProofType ap = Ok ProofOfInclusion ->
     au_str (cc_aud cc') = s /\ exists pol b, d_pol s = Some pol /\ d_body s = Some b /\
       vrf_verify (pol_vrf pol) uname (ap_lookup ap) (ap_vrf ap) = true /\ Verify ap uname (Some (obytes (pn_value l))) (s_hash b) = Ok None).
  { clear. intros cc t m k cc' ap s l U H A L P.
    assert (AC : acceptable cc t m uname k) by (apply handle_accepts_iff; eauto).
    destruct (C31_accepted_state C _ _ _ _ _ _ H) as (ap' & s' & A' & _ & CA). rewrite CA. cbn [au_str].
    destruct A as (df & aps & strs & D & HA & HS). destruct A' as (df' & aps' & strs' & D' & HA' & HS').
    rewrite D in D'. injection D' as <-. rewrite HS in HS'. injection HS' as <- _. split; auto.
    destruct AC as (df1 & ap1 & aps1 & s1 & strs1 & pol & b & leaf & pt & D1 & HA1 & HS1 & _ & Q1 & Q2 & Q3 & _ & Q4 & Q5 & _).
    rewrite D in D1. injection D1 as <-. rewrite HA in HA1. injection HA1 as <- _. rewrite HS in HS1. injection HS1 as <- _.
    rewrite L in Q3. injection Q3 as <-. exists pol, b. split; auto. split; auto. split; auto.
    assert (X : forall o, Verify ap uname o (s_hash b) = Ok None -> Verify ap uname (Some (obytes (pn_value l))) (s_hash b) = Ok None).
    { intros o V. unfold Verify in *. rewrite P, L in *. cbn [bind] in *. cbn [obytes].
      destruct (beq_spec (obytes (pn_value l)) (obytes o)) as [E|E]; cbn [negb] in V; [|discriminate V].
      rewrite beq_refl. cbn [negb]. rewrite E. exact V. }
    apply (X _ Q5). }
  destruct (ST _ _ _ _ _ _ _ _ U1 H1 A1 L1 P1) as (E1 & p1 & b1 & X1 & Y1 & V1 & W1).
  destruct (ST _ _ _ _ _ _ _ _ U2 H2 A2 L2 P2) as (E2 & p2 & b2 & X2 & Y2 & V2 & W2).
  rewrite E1, E2 in ES. subst s2. rewrite X1 in X2. injection X2 as <-. rewrite Y1 in Y2. injection Y2 as <-.
  destruct (beq_spec (ap_lookup ap1) (ap_lookup ap2)) as [EI|NI].
  2:{ right. left. exists (pol_vrf p1). auto. }
  destruct B1 as (O1 & l1' & c1 & L1' & C1 & F1 & S1). destruct B2 as (O2 & l2' & c2 & L2' & C2 & F2 & S2).
  rewrite L1 in L1'. injection L1' as <-. rewrite L2 in L2'. injection L2' as <-.
  destruct (C11_inclusion_binds C OK ap1 ap2 l1 l2 c1 c2 uname _ _ _ W1 W2 EI) as [Q|Q]; auto; try congruence.
  apply (ok_vrf_verify_len C OK _ _ _ _ V1).
Qed.
Print Assumptions C33_conflict_exposes.

(** [Verify] compares the value it is given with the one in the leaf, or (for a
    proof of absence) does not look at it. *)
Lemma verify_leaf_value {C : Crypto} ap leaf uname w h : ap_leaf ap = Some leaf ->
  Verify ap uname w h = Ok None -> Verify ap uname (Some (obytes (pn_value leaf))) h = Ok None.
Proof.
  intros L V. unfold Verify in *. rewrite L in *. destruct (ProofType ap) as [[|]|]; cbn [bind] in *; [exact V| |discriminate V].
  cbn [obytes]. destruct (beq_spec (obytes (pn_value leaf)) (obytes w)) as [E|E]; cbn [negb] in V; [|discriminate V].
  rewrite beq_refl. cbn [negb]. rewrite E. exact V.
Qed.

(** ... and one client accepting a key while the other accepts absence always
    exhibits a collision (or two VRF outputs). *)
Theorem C33_presence_vs_absence_exposes : forall (C : Crypto), CryptoOk C ->
  forall cc1 cc2 t1 t2 m1 m2 uname k1 k2 cc1' cc2' ap1 ap2 s1 s2 l1 l2,
  cc_useTBs cc1 = true -> cc_useTBs cc2 = true ->
  HandleResponse cc1 t1 m1 uname k1 = Ok (cc1', None) -> HandleResponse cc2 t2 m2 uname k2 = Ok (cc2', None) ->
  answer m1 ap1 s1 -> answer m2 ap2 s2 ->
  au_str (cc_aud cc1') = au_str (cc_aud cc2') ->
  ap_leaf ap1 = Some l1 -> ap_leaf ap2 = Some l2 ->
  ProofType ap1 = Ok ProofOfInclusion -> ProofType ap2 = Ok ProofOfAbsence ->
  pruned_ok ap1 -> pruned_ok ap2 -> pn_empty l1 = false -> length (ap_nonce ap1) = 32 -> absence_shape ap2 l2 ->
  (exists vpk, vrf_verify vpk uname (ap_lookup ap1) (ap_vrf ap1) = true /\
     vrf_verify vpk uname (ap_lookup ap2) (ap_vrf ap2) = true /\ ap_lookup ap1 <> ap_lookup ap2) \/
  collision_between (verify_inputs ap1 uname (obytes (pn_value l1))) (verify_inputs ap2 uname (obytes (pn_value l2))).
Proof.
  intros C OK cc1 cc2 t1 t2 m1 m2 uname k1 k2 cc1' cc2' ap1 ap2 s1 s2 l1 l2 U1 U2 H1 H2 A1 A2 ES L1 L2 P1 P2 O1 O2 F1 N1 SH.
  assert (ST : forall cc t m k cc' ap s, cc_useTBs cc = true -> HandleResponse cc t m uname k = Ok (cc', None) ->
     answer m ap s ->
     au_str (cc_aud cc') = s /\ exists pol b v, d_pol s = Some pol /\ d_body s = Some b /\
       vrf_verify (pol_vrf pol) uname (ap_lookup ap) (ap_vrf ap) = true /\ Verify ap uname v (s_hash b) = Ok None).
  { clear. intros cc t m k cc' ap s U H A.
    assert (AC : acceptable cc t m uname k) by (apply handle_accepts_iff; eauto).
    destruct (C31_accepted_state C _ _ _ _ _ _ H) as (ap' & s' & A' & _ & CA). rewrite CA. cbn [au_str].
    destruct A as (df & aps & strs & D & HA & HS). destruct A' as (df' & aps' & strs' & D' & HA' & HS').
    rewrite D in D'. injection D' as <-. rewrite HS in HS'. injection HS' as <- _. split; auto.
    destruct AC as (df1 & ap1 & aps1 & s1 & strs1 & pol & b & leaf & pt & D1 & HA1 & HS1 & _ & Q1 & Q2 & Q3 & _ & Q4 & Q5 & _).
    rewrite D in D1. injection D1 as <-. rewrite HA in HA1. injection HA1 as <- _. rewrite HS in HS1. injection HS1 as <- _. eauto 10. }
  destruct (ST _ _ _ _ _ _ _ U1 H1 A1) as (E1 & p1 & b1 & v1 & X1 & Y1 & V1 & W1).
  destruct (ST _ _ _ _ _ _ _ U2 H2 A2) as (E2 & p2 & b2 & v2 & X2 & Y2 & V2 & W2).
  rewrite E1, E2 in ES. subst s2. rewrite X1 in X2. injection X2 as <-. rewrite Y1 in Y2. injection Y2 as <-.
  destruct (beq_spec (ap_lookup ap1) (ap_lookup ap2)) as [EI|NI].
  2:{ left. exists (pol_vrf p1). auto. }
  right. apply (verify_leaf_value _ _ _ _ _ L1) in W1. apply (verify_leaf_value _ _ _ _ _ L2) in W2.
  apply (C12_not_both C OK ap1 ap2 l1 l2 uname _ _ _ W1 W2); auto. apply (ok_vrf_verify_len C OK _ _ _ _ V1).
Qed.
Print Assumptions C33_presence_vs_absence_exposes.

(** ** C34 *)

(** The key a caller passes is enforced: an accepted answer carries it. *)
Theorem C34_given_key_enforced : forall (C : Crypto) cc t msg uname k cc' ap s,
  cc_useTBs cc = true -> HandleResponse cc t msg uname (Some k) = Ok (cc', None) -> answer msg ap s ->
  match ProofType ap with
  | Ok ProofOfInclusion => exists leaf, ap_leaf ap = Some leaf /\ obytes (pn_value leaf) = k
  | Ok ProofOfAbsence => r_error msg = ReqNameNotFound \/
      exists df tb, r_df msg = Some (DProof (Some df)) /\ dp_tb df = Some tb /\ tb_value tb = k
  | Panic => False
  end.
Proof.
  intros C cc t msg uname k cc' ap s U H (df & aps & strs & D & HA & HS).
  assert (AC : acceptable cc t msg uname (Some k)) by (apply handle_accepts_iff; eauto).
  destruct AC as (df1 & ap1 & aps1 & s1 & strs1 & pol & b & leaf & pt & D1 & HA1 & HS1 & _ & Q1 & Q2 & Q3 & PT & Q4 & Q5 & CA).
  rewrite D in D1. injection D1 as <-. rewrite HA in HA1. injection HA1 as <- _. rewrite PT.
  destruct pt.
  - destruct CA as [(_ & CA)|(_ & tb & E & _ & _ & K)]; [auto|]. right. exists df, tb. auto.
  - exists leaf. split; auto. unfold Verify in Q5. rewrite PT, Q3 in Q5. cbn [bind] in Q5.
    destruct (beq_spec (obytes (pn_value leaf)) (obytes (Some k))) as [E|E]; cbn [negb] in Q5; [exact E|discriminate Q5].
Qed.
Print Assumptions C34_given_key_enforced.

(** ... and a proof of inclusion for another key is reported as
    [CheckBindingsDiffer]. *)
Theorem C34_other_key_reported : forall (C : Crypto) cc msg uname k ap s pol leaf,
  is_error (r_error msg) = false -> answer msg ap s -> next_str (cc_aud cc) s -> d_pol s = Some pol ->
  vrf_verify (pol_vrf pol) uname (ap_lookup ap) (ap_vrf ap) = true ->
  ProofType ap = Ok ProofOfInclusion -> ap_leaf ap = Some leaf -> obytes (pn_value leaf) <> k ->
  (r_error msg = ReqSuccess ->
     exists cc', HandleResponse cc KeyLookupType msg uname (Some k) = Ok (cc', Some CheckBindingsDiffer)) /\
  (r_error msg = ReqNameExisted ->
     exists cc', HandleResponse cc RegistrationType msg uname (Some k) = Ok (cc', Some CheckBindingsDiffer)).
Proof.
  intros C cc msg uname k ap s pol leaf NE (df & aps & strs & D & HA & HS) N P V PT L NK.
  set (cc1 := set_aud cc (mkAud (au_key (cc_aud cc)) s)).
  assert (VP : verifyAuthPath uname (Some k) ap s = Ok (Some CheckBindingsDiffer)).
  { unfold verifyAuthPath. rewrite P. cbn [deref bind]. rewrite V. cbn [negb]. rewrite L. cbn [deref bind].
    destruct N as (NB & _). destruct (d_body s) as [b|]; [|congruence]. cbn [deref bind].
    unfold Verify. rewrite PT, L. cbn [bind]. destruct (beq_spec (obytes (pn_value leaf)) (obytes (Some k))); [contradiction|]. reflexivity. }
  assert (U : forall t, t = RegistrationType \/ t = KeyLookupType -> updateSTR cc t df = Ok (cc1, None)).
  { intros t T. apply update_str_ok. split; auto. exists s, strs. auto. }
  split; intro E; exists cc1; unfold HandleResponse, Validate; rewrite NE, D, HA, HS; cbn [bind].
  - change (Z.eqb KeyLookupType RegistrationType || Z.eqb KeyLookupType KeyLookupType || Z.eqb KeyLookupType KeyLookupInEpochType || Z.eqb KeyLookupType MonitoringType) with true. cbv iota.
    rewrite (U KeyLookupType) by auto. cbn [bind]. unfold checkConsistency. change (Z.eqb KeyLookupType RegistrationType) with false. cbv iota.
    rewrite Z.eqb_refl. unfold verifyKeyLookup, ap0, str0. rewrite HA, HS. unfold index. cbn [nth_error bind]. unfold proofType. cbn [deref bind].
    rewrite PT. cbn [bind]. rewrite E. change (Z.eqb ReqSuccess ReqNameNotFound) with false. rewrite Z.eqb_refl. cbn [isAbsence negb andb orb deref bind].
    rewrite VP. reflexivity.
  - change (Z.eqb RegistrationType RegistrationType || Z.eqb RegistrationType KeyLookupType || Z.eqb RegistrationType KeyLookupInEpochType || Z.eqb RegistrationType MonitoringType) with true. cbv iota.
    rewrite (U RegistrationType) by auto. cbn [bind]. unfold checkConsistency.
    rewrite Z.eqb_refl. unfold verifyRegistration, ap0, str0. rewrite HA, HS. unfold index. cbn [nth_error bind]. unfold proofType. cbn [deref bind].
    rewrite PT. cbn [bind]. rewrite E. rewrite Z.eqb_refl. cbn [isAbsence negb andb orb deref bind].
    rewrite VP. reflexivity.
Qed.
Print Assumptions C34_other_key_reported.

(** The client itself never remembers a key: whatever happened, the binding it
    stores for every name is nil, so a lookup that relies on it (as
    cli/coniksclient/internal/cmd/run.go does) is trust-on-first-use forever. *)
Theorem C34_no_key_remembered : forall (C : Crypto) saved useTBs pk cc0 l cc name,
  Client_New saved useTBs pk = Ok cc0 -> client_run cc0 l = Ok cc ->
  map_get beq name (cc_bindings cc) = None \/ map_get beq name (cc_bindings cc) = Some None.
Proof.
  intros C saved useTBs pk cc0 l cc name N R.
  assert (B0 : map_get beq name (cc_bindings cc0) = None \/ map_get beq name (cc_bindings cc0) = Some None).
  { unfold Client_New in N. destruct useTBs; [|discriminate N]. injection N as <-. left. reflexivity. }
  clear N. revert cc0 B0 R. induction l as [|[[[t msg] uname] key] l IH]; intros cc0 B0 R; cbn [client_run] in R.
  - injection R as <-. exact B0.
  - destruct (HandleResponse cc0 t msg uname key) as [[cc1 err]|] eqn:E; cbn [bind] in R; [|discriminate R].
    apply (IH cc1); auto. destruct (handle_state _ _ _ _ _ _ _ E) as (_ & _ & D & _).
    destruct D as [->|(ap & s & _ & _ & _ & D)]; auto. destruct err as [e|].
    + destruct D as (_ & ->). exact B0.
    + destruct D as (_ & -> & _). destruct (beq_spec name uname) as [->|NE].
      * right. apply map_get_set_same, beq_eq.
      * rewrite map_get_set_other by (auto using beq_eq). exact B0.
Qed.
Print Assumptions C34_no_key_remembered.

(** Runs with the toy scheme.  The server's keys and first STR are those of one
    honest directory; later answers come from manipulated ones. *)
Definition ex_dir (ops : list dir_op) : result Directory :=
  do d0 <- @Directory_New ToyCrypto 5 [x11] [x10] 8 true (Some [x07]) (Some [x08]); @dir_run ToyCrypto d0 ops.
Definition ex_client : result Checks :=
  do d0 <- ex_dir []; Client_New (LatestSTR d0) true (@sign_pub ToyCrypto [x10]).
Definition ex_lookup (ops : list dir_op) (name : bytes) : result Response :=
  do d <- ex_dir ops; @KeyLookup ToyCrypto d name.
Definition ex_register (ops : list dir_op) (name key : bytes) : result Response :=
  do d <- ex_dir ops; do (_, resp) <- @Register ToyCrypto d (Some [x01]) name key; Ok resp.
(** A server that overwrites a key in its tree. *)
Definition ex_overwritten (ops : list dir_op) (name key : bytes) : result Response :=
  do d <- ex_dir ops;
  do o <- @PAD_Set ToyCrypto Policies (dr_pad d) (Some [x09]) name key;
  match o with
  | None => Panic
  | Some p => @KeyLookup ToyCrypto (@Directory_Update ToyCrypto (mkDirectory p true [] (dr_pol d))) name
  end.
(** The key [keyLookup] of the command-line client passes
    (cli/coniksclient/internal/cmd/run.go): the stored binding. *)
Definition cli_key (cc : Checks) (name : bytes) : option bytes :=
  match map_get beq name (cc_bindings cc) with Some k => k | None => None end.
Definition shown_value (msg : Response) : option bytes :=
  match r_df msg with
  | Some (DProof (Some df)) =>
      match dp_ap df with
      | Some ap :: _ => match ap_leaf ap with Some leaf => pn_value leaf | None => None end
      | _ => None
      end
  | _ => None
  end.

(** As stated the property is false: a server may show one key for a name, and
    in the next epoch another one; the client accepts both. *)
Theorem C34_key_change_undetected_refuted :
  exists (C : Crypto), CryptoOk C /\ exists saved pk cc0 m1 m2 cc1 cc2 name k1 k2,
    Client_New saved true pk = Ok cc0 /\
    HandleResponse cc0 KeyLookupType m1 name (cli_key cc0 name) = Ok (cc1, None) /\
    HandleResponse cc1 KeyLookupType m2 name (cli_key cc1 name) = Ok (cc2, None) /\
    shown_value m1 = Some k1 /\ shown_value m2 = Some k2 /\ k1 <> k2.
Proof.
  exists ToyCrypto. split; [exact ToyCrypto_ok|].
  pose (ops := [DRegister (Some [x01]) [x61] [x31]; DUpdate]).
  assert (H : match ex_dir [], ex_client, ex_lookup ops [x61], ex_overwritten ops [x61] [x32] with
    | Ok d0, Ok cc0, Ok m1, Ok m2 =>
        match @HandleResponse ToyCrypto cc0 KeyLookupType m1 [x61] (cli_key cc0 [x61]) with
        | Ok (cc1, None) =>
            match @HandleResponse ToyCrypto cc1 KeyLookupType m2 [x61] (cli_key cc1 [x61]) with
            | Ok (cc2, None) => match shown_value m1, shown_value m2 with Some k1, Some k2 => negb (beq k1 k2) | _, _ => false end
            | _ => false end
        | _ => false end
    | _, _, _, _ => false end = true) by (vm_compute; reflexivity).
  unfold ex_client in H. destruct (ex_dir []) as [d0|]; [|discriminate H]. cbn [bind] in H.
  destruct (Client_New (LatestSTR d0) true (@sign_pub ToyCrypto [x10])) as [cc0|] eqn:E0; [|discriminate H].
  destruct (ex_lookup ops [x61]) as [m1|]; [|discriminate H]. destruct (ex_overwritten ops [x61] [x32]) as [m2|]; [|discriminate H].
  destruct (@HandleResponse ToyCrypto cc0 KeyLookupType m1 [x61] (cli_key cc0 [x61])) as [[cc1 [?|]]|] eqn:E1; try discriminate H.
  destruct (@HandleResponse ToyCrypto cc1 KeyLookupType m2 [x61] (cli_key cc1 [x61])) as [[cc2 [?|]]|] eqn:E2; try discriminate H.
  destruct (shown_value m1) as [k1|] eqn:S1; [|discriminate H]. destruct (shown_value m2) as [k2|] eqn:S2; [|discriminate H].
  exists (LatestSTR d0), (@sign_pub ToyCrypto [x10]), cc0, m1, m2, cc1, cc2, [x61], k1, k2.
  repeat (split; [assumption|]). intro Q. rewrite (proj2 (beq_eq k1 k2) Q) in H. discriminate H.
Qed.
Print Assumptions C34_key_change_undetected_refuted.

(** ** C35 *)

(** A proof of inclusion for a promised name is accepted only if it carries the
    promised binding; the promise is then discharged. *)
Theorem C35_inclusion_must_match_promise : forall (C : Crypto) cc msg uname key cc' ap s leaf tb,
  cc_useTBs cc = true -> HandleResponse cc KeyLookupType msg uname key = Ok (cc', None) -> answer msg ap s ->
  ProofType ap = Ok ProofOfInclusion -> ap_leaf ap = Some leaf -> map_get beq uname (cc_tbs cc) = Some tb ->
  tb_index tb = ap_lookup ap /\ tb_value tb = obytes (pn_value leaf) /\ map_get beq uname (cc_tbs cc') = None.
Proof.
  intros C cc msg uname key cc' ap s leaf tb U H (df & aps & strs & D & HA & HS) PT L M.
  assert (AC : acceptable cc KeyLookupType msg uname key) by (apply handle_accepts_iff; eauto).
  destruct AC as (df1 & ap1 & aps1 & s1 & strs1 & pol & b & leaf1 & pt & D1 & HA1 & HS1 & NS & Q1 & Q2 & Q3 & PT1 & Q4 & Q5 & CA).
  rewrite D in D1. injection D1 as <-. rewrite HA in HA1. injection HA1 as <- _. rewrite HS in HS1. injection HS1 as <- _.
  rewrite L in Q3. injection Q3 as <-. rewrite PT in PT1. injection PT1 as <-.
  destruct CA as [(X & _)|(_ & E & CA)]; [discriminate X|]. destruct (CA tb M) as (I1 & I2). split; auto. split; auto.
  (* the promise is deleted *)
  unfold HandleResponse in H. destruct (Validate msg) as [[?|]|]; cbn [bind] in H; try discriminate H.
  change (Z.eqb KeyLookupType RegistrationType || Z.eqb KeyLookupType KeyLookupType || Z.eqb KeyLookupType KeyLookupInEpochType || Z.eqb KeyLookupType MonitoringType) with true in H. cbv iota in H.
  rewrite D in H. rewrite (proj2 (update_str_ok cc KeyLookupType df _)) in H by (split; [auto|exists s, strs; split; [exact HS|split; [exact NS|reflexivity]]]).
  cbn [bind] in H. destruct (checkConsistency _ _ _ _ _ _) as [[?|]|]; cbn [bind] in H; try discriminate H.
  unfold updateTBs, ap0 in H. cbn [set_aud cc_useTBs] in H. rewrite U, HA in H. cbn [negb] in H. unfold index in H. cbn [nth_error bind] in H.
  change (Z.eqb KeyLookupType RegistrationType) with false in H. cbv iota in H. rewrite Z.eqb_refl in H. unfold proofType in H. cbn [deref bind] in H.
  rewrite PT in H. cbn [bind isAbsence negb] in H. rewrite E, Z.eqb_refl in H. cbn [andb] in H.
  destruct (verifyFulfilledPromise _ _ _) as [[?|]|]; cbn [bind] in H; try discriminate H. injection H as <-.
  cbn [set_tbs cc_tbs set_aud]. apply map_get_del_same.
Qed.
Print Assumptions C35_inclusion_must_match_promise.

(** A proof of inclusion for another value, otherwise flawless, is reported as
    a broken promise. *)
Theorem C35_mismatch_reported : forall (C : Crypto) cc msg uname key ap s pol b leaf tb,
  cc_useTBs cc = true -> r_error msg = ReqSuccess -> answer msg ap s ->
  next_str (cc_aud cc) s -> d_pol s = Some pol -> d_body s = Some b ->
  vrf_verify (pol_vrf pol) uname (ap_lookup ap) (ap_vrf ap) = true ->
  ap_leaf ap = Some leaf -> ProofType ap = Ok ProofOfInclusion ->
  Verify ap uname (match key with Some k => Some k | None => pn_value leaf end) (s_hash b) = Ok None ->
  map_get beq uname (cc_tbs cc) = Some tb ->
  (tb_index tb <> ap_lookup ap \/ tb_value tb <> obytes (pn_value leaf)) ->
  exists cc', HandleResponse cc KeyLookupType msg uname key = Ok (cc', Some CheckBrokenPromise) /\
    map_get beq uname (cc_tbs cc') = Some tb.
Proof.
  intros C cc msg uname key ap s pol b leaf tb U E (df & aps & strs & D & HA & HS) NS P1 P2 V L PT VF M NM.
  set (cc1 := set_aud cc (mkAud (au_key (cc_aud cc)) s)). exists cc1. split; [|exact M].
  assert (VP : verifyAuthPath uname key ap s = Ok None) by (apply verify_path_ok; eauto 10).
  unfold HandleResponse, Validate. rewrite E. change (is_error ReqSuccess) with false. rewrite D, HA, HS. cbn [bind].
  change (Z.eqb KeyLookupType RegistrationType || Z.eqb KeyLookupType KeyLookupType || Z.eqb KeyLookupType KeyLookupInEpochType || Z.eqb KeyLookupType MonitoringType) with true. cbv iota.
  rewrite (proj2 (update_str_ok cc KeyLookupType df cc1)) by (split; [auto|exists s, strs; auto]).
  cbn [bind]. unfold checkConsistency. change (Z.eqb KeyLookupType RegistrationType) with false. cbv iota. rewrite Z.eqb_refl.
  unfold verifyKeyLookup, ap0, str0. rewrite HA, HS. unfold index. cbn [nth_error bind]. unfold proofType. cbn [deref bind].
  rewrite PT. cbn [bind]. change (Z.eqb ReqSuccess ReqNameNotFound) with false. rewrite Z.eqb_refl. cbn [isAbsence negb andb orb deref bind].
  rewrite VP. cbn [bind]. unfold updateTBs, ap0. cbn [cc1 set_aud cc_useTBs]. rewrite U, HA. cbn [negb]. 
  change (Z.eqb KeyLookupType RegistrationType) with false. cbv iota. rewrite Z.eqb_refl. unfold index. cbn [nth_error bind].
  unfold proofType. cbn [deref bind]. rewrite PT. cbn [bind isAbsence negb]. rewrite Z.eqb_refl. cbn [andb deref bind].
  unfold verifyFulfilledPromise. cbn [cc_tbs set_aud]. fold cc1. change (cc_tbs cc1) with (cc_tbs cc). rewrite M, L. cbn [deref bind].
  destruct (beq_spec (ap_lookup ap) (tb_index tb)), (beq_spec (obytes (pn_value leaf)) (tb_value tb)); cbn [negb orb bind]; try reflexivity.
  exfalso. destruct NM; congruence.
Qed.
Print Assumptions C35_mismatch_reported.

(** As stated the property is false: the client accepts "name not found" in the
    epoch after the promise (keeping the promise), and it accepts a fresh
    promise for another key in a later epoch (forgetting the first). *)
Theorem C35_broken_promise_undetected_refuted :
  exists (C : Crypto), CryptoOk C /\ exists saved pk cc0 m1 m2 m3 cc1 cc2 cc3 name k1 k2 tb1 tb2,
    Client_New saved true pk = Ok cc0 /\ k1 <> k2 /\
    HandleResponse cc0 RegistrationType m1 name (Some k1) = Ok (cc1, None) /\
    map_get beq name (cc_tbs cc1) = Some tb1 /\ tb_value tb1 = k1 /\ epoch_of (au_str (cc_aud cc1)) = Some 0%N /\
    HandleResponse cc1 KeyLookupType m2 name (cli_key cc1 name) = Ok (cc2, None) /\
    r_error m2 = ReqNameNotFound /\ epoch_of (au_str (cc_aud cc2)) = Some 1%N /\
    HandleResponse cc2 KeyLookupType m3 name (cli_key cc2 name) = Ok (cc3, None) /\
    r_error m3 = ReqSuccess /\ epoch_of (au_str (cc_aud cc3)) = Some 2%N /\
    map_get beq name (cc_tbs cc3) = Some tb2 /\ tb_value tb2 = k2.
Proof.
  exists ToyCrypto. split; [exact ToyCrypto_ok|].
  pose (ep := fun cc => match epoch_of (au_str (cc_aud cc)) with Some e => e | None => 99%N end).
  assert (H : match ex_dir [], ex_client, ex_register [] [x61] [x31], ex_lookup [DUpdate] [x61],
                    ex_lookup [DUpdate; DUpdate; DRegister (Some [x01]) [x61] [x32]] [x61] with
    | Ok d0, Ok cc0, Ok m1, Ok m2, Ok m3 =>
        match @HandleResponse ToyCrypto cc0 RegistrationType m1 [x61] (Some [x31]) with
        | Ok (cc1, None) =>
          match @HandleResponse ToyCrypto cc1 KeyLookupType m2 [x61] (cli_key cc1 [x61]) with
          | Ok (cc2, None) =>
            match @HandleResponse ToyCrypto cc2 KeyLookupType m3 [x61] (cli_key cc2 [x61]) with
            | Ok (cc3, None) => match map_get beq [x61] (cc_tbs cc1), map_get beq [x61] (cc_tbs cc3) with
                | Some tb1, Some tb2 => beq (tb_value tb1) [x31] && beq (tb_value tb2) [x32] && Z.eqb (r_error m2) ReqNameNotFound &&
                    Z.eqb (r_error m3) ReqSuccess && N.eqb (ep cc1) 0 && N.eqb (ep cc2) 1 && N.eqb (ep cc3) 2
                | _, _ => false end
            | _ => false end
          | _ => false end
        | _ => false end
    | _, _, _, _, _ => false end = true) by (vm_compute; reflexivity).
  unfold ex_client in H. destruct (ex_dir []) as [d0|]; [|discriminate H]. cbn [bind] in H.
  destruct (Client_New (LatestSTR d0) true (@sign_pub ToyCrypto [x10])) as [cc0|] eqn:E0; [|discriminate H].
  destruct (ex_register [] [x61] [x31]) as [m1|]; [|discriminate H]. destruct (ex_lookup [DUpdate] [x61]) as [m2|]; [|discriminate H].
  destruct (ex_lookup [DUpdate; DUpdate; DRegister (Some [x01]) [x61] [x32]] [x61]) as [m3|]; [|discriminate H].
  destruct (@HandleResponse ToyCrypto cc0 RegistrationType m1 [x61] (Some [x31])) as [[cc1 [?|]]|] eqn:E1; try discriminate H.
  destruct (@HandleResponse ToyCrypto cc1 KeyLookupType m2 [x61] (cli_key cc1 [x61])) as [[cc2 [?|]]|] eqn:E2; try discriminate H.
  destruct (@HandleResponse ToyCrypto cc2 KeyLookupType m3 [x61] (cli_key cc2 [x61])) as [[cc3 [?|]]|] eqn:E3; try discriminate H.
  destruct (map_get beq [x61] (cc_tbs cc1)) as [tb1|] eqn:T1; [|discriminate H].
  destruct (map_get beq [x61] (cc_tbs cc3)) as [tb2|] eqn:T3; [|discriminate H].
  rewrite !andb_true_iff, !beq_eq, !Z.eqb_eq, !N.eqb_eq in H. destruct H as ((((((V1 & V2) & R2) & R3) & P1) & P2) & P3).
  assert (EP : forall cc e, e <> 99%N -> ep cc = e -> epoch_of (au_str (cc_aud cc)) = Some e).
  { intros cc e NE. unfold ep. destruct (epoch_of (au_str (cc_aud cc))); congruence. }
  exists (LatestSTR d0), (@sign_pub ToyCrypto [x10]), cc0, m1, m2, m3, cc1, cc2, cc3, [x61], [x31], [x32], tb1, tb2.
  split; [assumption|]. split; [discriminate|]. split; [assumption|]. split; [assumption|]. split; [assumption|].
  split; [apply EP; [discriminate|exact P1]|]. split; [assumption|]. split; [assumption|].
  split; [apply EP; [discriminate|exact P2]|]. split; [assumption|]. split; [assumption|].
  split; [apply EP; [discriminate|exact P3]|]. split; assumption.
Qed.
Print Assumptions C35_broken_promise_undetected_refuted.

(** ** C36 *)

(** Enough for not crashing: the request type is one of the two implemented
    ones, nothing is null where a pointer is followed, and the path has the
    shape [Verify] relies on. *)
Definition well_shaped (msg : Response) : Prop :=
  match r_df msg with
  | Some (DProof None) | Some (DHistory None) => False
  | Some (DProof (Some df)) =>
      match dp_ap df, dp_str df with
      | Some ap :: _, Some s :: _ => shape_ok ap /\ d_body s <> None /\ d_pol s <> None
      | [], _ | _, [] => True
      | _, _ => False
      end
  | _ => True
  end.
Theorem C36_no_crash_on_well_shaped : forall (C : Crypto) cc t msg uname key,
  t = RegistrationType \/ t = KeyLookupType -> well_shaped msg ->
  d_body (au_str (cc_aud cc)) <> None ->
  exists cc' err, HandleResponse cc t msg uname key = Ok (cc', err).
Proof.
  intros C cc t msg uname key T W NB.
  assert (TT : Z.eqb t RegistrationType || Z.eqb t KeyLookupType || Z.eqb t KeyLookupInEpochType || Z.eqb t MonitoringType = true)
    by (destruct T as [->| ->]; reflexivity).
  assert (T2 : Z.eqb t RegistrationType || Z.eqb t KeyLookupType = true) by (destruct T as [->| ->]; reflexivity).
  unfold HandleResponse, well_shaped, Validate in *. destruct (is_error (r_error msg)); [cbn [bind]; eauto|].
  destruct (r_df msg) as [[[df|]|[[|? ?]|]]|]; try contradiction; cbn [bind]; rewrite ?TT; eauto.
  destruct (dp_str df) as [|os strs] eqn:HS; [cbn [bind]; eauto|].
  destruct (dp_ap df) as [|oap aps] eqn:HA; [cbn [bind]; eauto|]. cbn [bind].
  destruct oap as [ap|]; [|contradiction]. destruct os as [s|]; [|contradiction]. destruct W as (SO & SB & SP).
  destruct (d_body s) as [b|] eqn:Eb; [|congruence]. destruct (d_pol s) as [pol|] eqn:Ep; [|congruence].
  (* the STR check *)
  assert (CS : exists o, CheckSTRAgainstVerified (cc_aud cc) (Some s) = Ok o).
  { unfold CheckSTRAgainstVerified, str_epoch. cbn [deref bind]. rewrite Eb. cbn [bind].
    destruct (d_body (au_str (cc_aud cc))) as [b0|] eqn:E0; [|congruence]. cbn [bind].
    destruct (N.eqb _ _); [eauto|]. destruct (N.eqb _ _); [|eauto].
    unfold verifySTRConsistency, DirSTR_Serialize, str_sig, DirSTR_VerifyHashChain. cbn [deref]; rewrite ?Eb, ?Ep; cbn [bind deref]; rewrite ?E0; cbn [bind deref].
    destruct (negb _); eauto. }
  destruct CS as (o & CS). unfold updateSTR, str0. rewrite T2, HS. unfold index. cbn [nth_error bind]. unfold AuditDirectory. rewrite CS. cbn [bind].
  destruct o as [e|]; cbn [bind VerifySTRRange deref]; [eauto|].
  set (cc1 := set_aud cc _).
  destruct SO as (leaf & AL & SO). assert (SO' : shape_ok ap) by (exists leaf; auto).
  assert (PT : exists pt, ProofType ap = Ok pt) by (unfold ProofType; rewrite AL; eauto). destruct PT as (pt & PT).
  assert (VA : exists o, verifyAuthPath uname key ap s = Ok o).
  { unfold verifyAuthPath. rewrite Ep. cbn [deref bind]. destruct (negb _); [eauto|]. rewrite AL. cbn [deref bind]. rewrite Eb. cbn [deref bind].
    pose proof (C14_no_panic_on_well_shaped C ap uname (match key with Some k => Some k | None => pn_value leaf end) (s_hash b) SO') as NP.
    destruct (Verify _ _ _ _) as [v|]; [|congruence]. cbn [bind]. eauto. }
  destruct VA as (va & VA).
  assert (CK : exists o, checkConsistency cc1 t (r_error msg) df uname key = Ok o).
  { unfold checkConsistency, verifyRegistration, verifyKeyLookup, ap0, str0. rewrite HA, HS. unfold index. cbn [nth_error bind].
    unfold proofType. cbn [deref bind]. rewrite PT. cbn [bind].
    destruct T as [->| ->]; [rewrite Z.eqb_refl|change (Z.eqb KeyLookupType RegistrationType) with false; rewrite Z.eqb_refl]; cbv iota;
      cbn [deref bind]; rewrite ?VA; match goal with |- context [if ?b then _ else _] => destruct b end; eauto. }
  destruct CK as (o & CK). rewrite CK. cbn [bind]. destruct o as [e|]; [eauto|].
  assert (UT : exists cc2 err, updateTBs cc1 t (r_error msg) df uname key = Ok (cc2, err)).
  { unfold updateTBs, ap0. destruct (negb _); [eauto|]. rewrite HA. unfold index. cbn [nth_error bind]. unfold proofType. cbn [deref bind]. rewrite PT. cbn [bind].
    assert (PR : exists cc2 err, (do err <- verifyReturnedPromise cc1 df key;
         match err with Some x => Ok (cc1, Some x) | None => do cc'' <- store_tb cc1 uname (dp_tb df); Ok (cc'', None) end) = Ok (cc2, err)).
    { unfold verifyReturnedPromise, ap0, str0. rewrite HA, HS. unfold index. cbn [nth_error bind].
      destruct (dp_tb df) as [tb|]; [|cbn [bind]; eauto]. cbn [deref bind]. unfold str_sig. rewrite Eb. cbn [bind].
      destruct (negb _); [cbn [bind]; eauto|]. destruct (negb _); [cbn [bind]; eauto|].
      destruct key as [k|]; [destruct (beq (tb_value tb) k)|]; cbn [bind]; unfold store_tb; cbn [deref bind]; eauto. }
    assert (FU : exists o, verifyFulfilledPromise cc1 uname ap = Ok o).
    { unfold verifyFulfilledPromise. rewrite AL. destruct (map_get beq uname (cc_tbs cc1)); cbn [deref bind]; eauto. }
    destruct FU as (fu & FU).
    destruct T as [->| ->]; [rewrite Z.eqb_refl|change (Z.eqb KeyLookupType RegistrationType) with false; rewrite Z.eqb_refl]; cbv iota.
    - destruct (isAbsence pt); [exact PR|eauto].
    - destruct (_ && negb _); [rewrite FU; cbn [bind]; destruct fu; eauto|]. destruct (_ && _); [exact PR|eauto]. }
  destruct UT as (cc2 & err & UT). rewrite UT. cbn [bind]. destruct err; eauto.
Qed.
Print Assumptions C36_no_crash_on_well_shaped.

(** As stated the property is false.  A server crashes the client with: a null
    path, a null STR, an STR without policies, a path without leaf, or a null
    proof body; and any answer without error to a request for a past epoch or
    for monitoring crashes it as well. *)
Theorem C36_malformed_answers_crash_refuted : forall (C : Crypto) cc uname key e ap s tb,
  is_error e = false ->
  let msg aps strs := mkResp e (Some (DProof (Some (mkDP aps strs tb)))) in
  (* null STR *)
  HandleResponse cc KeyLookupType (msg [Some ap] [None]) uname key = Panic /\
  (* STR without a tree root *)
  (forall p, HandleResponse cc KeyLookupType (msg [Some ap] [Some (mkDir None p)]) uname key = Panic) /\
  (* null path, or path without leaf, with the verified STR *)
  (d_body (au_str (cc_aud cc)) <> None ->
     HandleResponse cc KeyLookupType (msg [None] [Some (au_str (cc_aud cc))]) uname key = Panic /\
     HandleResponse cc KeyLookupType (msg [Some (mkAP [] [] [] [] None)] [Some (au_str (cc_aud cc))]) uname key = Panic) /\
  (* null proof body *)
  HandleResponse cc KeyLookupType (mkResp e (Some (DProof None))) uname key = Panic /\
  (* request types that are declared but not implemented *)
  HandleResponse cc KeyLookupInEpochType (msg [Some ap] [Some s]) uname key = Panic /\
  HandleResponse cc MonitoringType (msg [Some ap] [Some s]) uname key = Panic.
Proof.
  intros C cc uname key e ap s tb E msg. unfold HandleResponse, Validate, msg. cbn [r_error r_df dp_str dp_ap]. rewrite E.
  split; [reflexivity|]. split; [reflexivity|]. split.
  { intro NB. destruct (d_body (au_str (cc_aud cc))) as [b|] eqn:B; [|congruence].
    assert (AD : forall aps tb, updateSTR cc KeyLookupType (mkDP aps [Some (au_str (cc_aud cc))] tb) =
       Ok (set_aud cc (mkAud (au_key (cc_aud cc)) (au_str (cc_aud cc))), None)).
    { intros aps tb'. apply update_str_ok. split; auto. exists (au_str (cc_aud cc)), []. split; auto. split; auto. split; [congruence|auto]. }
    cbn [bind]. rewrite !AD. split; reflexivity. }
  split; [reflexivity|]. split; reflexivity.
Qed.
Print Assumptions C36_malformed_answers_crash_refuted.

(** ** Non-vacuity of C30: a run with a registration, a foreign registration,
    epochs, a wrong key and an absent name; its outcomes. *)
Definition joint_ex : list joint_op :=
  [JRegister [x01] [x61] [x31]; JLookup [x61] (Some [x31]); JOther DUpdate; JOther (DRegister (Some [x02]) [x62] [x32]);
   JLookup [x61] None; JLookup [x61] (Some [x35]); JOther (DSetPolicies 7); JLookup [x62] (Some [x32]); JOther DUpdate;
   JRegister [x03] [x62] [x36]; JLookup [x63] (Some [x31])].
Example C30_nonvacuous :
  prompt 0 joint_ex /\ Forall wf_contact joint_ex /\ few (server_ops joint_ex) /\
  @vrf_good ToyCrypto [x11] (flat_map contact_names joint_ex ++ names_of (server_ops joint_ex)) /\
  outcomes [] joint_ex = [None; None; None; Some CheckBindingsDiffer; None; Some CheckBindingsDiffer; None].
Proof.
  split; [cbn; auto|]. split; [repeat constructor; discriminate|]. split; [cbv; reflexivity|]. split; [|vm_compute; reflexivity].
  split; [|intros k _; apply ToyCrypto_vrf].
  set (L := flat_map contact_names joint_ex ++ names_of (server_ops joint_ex)).
  assert (A : forallb (fun a => forallb (fun b => if list_eq_dec Bool.bool_dec (firstn 248 (ToBits (@idx_of ToyCrypto [x11] a)))
      (firstn 248 (ToBits (@idx_of ToyCrypto [x11] b))) then beq a b else true) L) L = true) by (vm_compute; reflexivity).
  intros a b Ia Ib E. rewrite forallb_forall in A. specialize (A a Ia). cbv beta in A. rewrite forallb_forall in A. specialize (A b Ib).
  cbv beta in A. destruct (list_eq_dec _ _ _); [|contradiction]. apply beq_eq. exact A.
Qed.
