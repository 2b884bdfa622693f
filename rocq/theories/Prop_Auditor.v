(** Properties of auditors, the audit log and the equivocation check
    (C37-C40).

    Reading guide ([AudSpec.v], [DirSpec.v]).  [signed_by pk s]: the STR's
    signature verifies under [pk]; [extends s p]: the hash-chain check of [s]
    against [p] succeeds; [follows pk p l]: all of [l] is signed and each
    element extends its predecessor, the first one [p]; [serves log id chain]:
    every range request about directory [id] is answered from exactly [chain].
    [log_run [] ops]: the audit log after the calls [ops]. *)
From Coq Require Import List NArith ZArith Lia Bool Arith.
From Verif Require Import Base Utils Crypto Tree TreeFacts STR PAD PADSpec PADFacts Protocol Directory DirSpec DirFacts DirMain
  Auditor AudSpec AudFacts Client Prop_Directory.
Import ListNotations.

(** ** C37 *)

(** [AuditDirectory] accepts exactly the lists that are a signed linear
    continuation of the verified STR (which may be repeated as the first). *)
Theorem C37_audit_accepts_iff : forall (C : Crypto) a strs,
  AuditDirectory a strs = Ok None <->
  exists s l, strs = map Some (s :: l) /\ d_body s <> None /\
    (s = au_str a \/ (signed_by (au_key a) s /\ extends s (au_str a))) /\
    follows (au_key a) s l.
Proof. intros C. exact audit_dir_ok. Qed.
Print Assumptions C37_audit_accepts_iff.

(** [extends] in terms of the fields. *)
Theorem C37_extends_meaning : forall (C : Crypto) s prev,
  extends s prev <-> exists b b', d_body s = Some b /\ d_body prev = Some b' /\
    s_epoch b = ((s_epoch b' + 1) mod 2 ^ 64)%N /\ s_pepoch b = s_epoch b' /\ s_phash b = Digest [s_sig b'].
Proof.
  intros C s prev. split; [apply extends_epoch|].
  intros (b & b' & B & B' & E & P & H). unfold extends, DirSTR_VerifyHashChain, VerifyHashChain. rewrite B, B', P, E, H.
  rewrite N.eqb_refl, beq_refl. change (add64 (s_epoch b') 1) with ((s_epoch b' + 1) mod 2 ^ 64)%N. rewrite N.eqb_refl. reflexivity.
Qed.
Print Assumptions C37_extends_meaning.

(** An auditor's state changes only on acceptance, and then to the last STR. *)
Theorem C37_audit_state : forall (C : Crypto) h msg h' err,
  Audit h msg = Ok (h', err) ->
  match err with
  | Some _ => h' = h
  | None => exists s l, r_df msg = Some (DHistory (Some (map Some (s :: l)))) /\
      (s = au_str (h_aud h) \/ (signed_by (au_key (h_aud h)) s /\ extends s (au_str (h_aud h)))) /\
      follows (au_key (h_aud h)) s l /\
      au_str (h_aud h') = last l s /\ au_key (h_aud h') = au_key (h_aud h)
  end.
Proof.
  intros C h msg h' err A. unfold Audit in A. destruct (Validate msg) as [[e|]|]; cbn [bind] in A; [injection A as <- <-; reflexivity| |discriminate].
  destruct (r_df msg) as [[?|[strs|]]|]; try discriminate.
  destruct (AuditDirectory (h_aud h) strs) as [[e|]|] eqn:AD; cbn [bind] in A; [injection A as <- <-; reflexivity| |discriminate].
  destruct (insertRange h strs) as [hh|] eqn:R; cbn [bind] in A; [|discriminate]. injection A as <- <-.
  apply audit_dir_ok in AD. destruct AD as (x & xs & -> & NB & D & F).
  assert (FA : Forall (fun s => d_body s <> None) (x :: xs)) by (constructor; [auto|eapply follows_body; eauto]).
  destruct (insert_spec (x :: xs) h FA) as (h' & E & A1 & A2 & A3 & A4). rewrite E in R. injection R as <-.
  exists x, xs. rewrite last_cons in A3. auto.
Qed.
Print Assumptions C37_audit_state.

(** An honest directory's history is accepted: an auditor at epoch [k] that
    asks for the STRs from [k] or [k+1] on accepts the answer and ends at the
    last STR of it. *)
Lemma chain_follows (C : Crypto) dl0 vk sk size r1 r2 ops : forall l a s,
  chain_from dl0 vk sk size r1 r2 ops a (s :: l) -> follows (sign_pub sk) s l.
Proof.
  induction l as [|x l IH]; intros a s (H1 & H2); [exact I|].
  destruct (H1 1 x eq_refl) as (_ & _ & SX). cbn [follows]. split; auto. split.
  - apply (H2 0 s x); reflexivity.
  - apply (IH (S a) x). split.
    + intros i y Hy. replace (S a + i) with (a + S i) by lia. apply (H1 (S i) y Hy).
    + intros i y z Hy Hz. exact (H2 (S i) y z Hy Hz).
Qed.
Theorem C37_honest_history_accepted : forall (C : Crypto), CryptoOk C ->
  forall dl0 vk sk size r1 r2 ops d k v h a b resp,
  dir_built dl0 vk sk size r1 r2 ops d -> few ops -> k <= dupdates ops ->
  published dl0 vk sk size r1 r2 ops k v ->
  h_aud h = mkAud (sign_pub sk) v ->
  a = k \/ a = k + 1 -> a <= b -> a <= dupdates ops ->
  GetSTRHistory d (N.of_nat a) (N.of_nat b) = Ok resp ->
  exists h' s, Audit h resp = Ok (h', None) /\ au_str (h_aud h') = s /\
    published dl0 vk sk size r1 r2 ops (Nat.min b (dupdates ops)) s.
Proof.
  intros C OK dl0 vk sk size r1 r2 ops d k v h a b resp B F L P HA AK AB AD G.
  destruct (C27_str_history C OK _ _ _ _ _ _ _ _ B F) as (lo & W & H). destruct (H a b) as (_ & H2 & H3).
  destruct (Nat.le_gt_cases lo a) as [LA|LA]; [|rewrite H3 in G by auto; discriminate].
  destruct (H2 LA AB AD) as (strs & E & LS & CH). rewrite E in G. injection G as <-.
  destruct strs as [|s l]; [cbn [length] in LS; lia|].
  pose proof (chain_follows _ _ _ _ _ _ _ _ _ _ _ CH) as FO.
  destruct CH as (CH1 & CH2). destruct (CH1 0 s eq_refl) as (P0 & E0 & S0). rewrite Nat.add_0_r in *.
  assert (OKD : AuditDirectory (h_aud h) (map Some (s :: l)) = Ok None).
  { apply audit_dir_ok. exists s, l. split; auto. split; [destruct S0 as (b0 & _ & X & _); congruence|].
    rewrite HA. cbn [au_str au_key]. split; auto. destruct AK as [->| ->].
    - left. eapply published_fun; eauto.
    - right. split; auto.
      assert (F' : (N.of_nat (dupdates ops) < two64)%N) by (unfold few, two64 in *; lia).
      destruct (built_dir_inv OK _ _ _ _ _ _ _ _ B F') as (pops & hist & I & _ & Q).
      destruct (Q k L) as (s1 & N1 & P1). destruct (Q (k + 1) AD) as (s2 & N2 & P2).
      rewrite (published_fun _ _ _ _ _ _ _ _ _ _ P P1), (published_fun _ _ _ _ _ _ _ _ _ _ P0 P2).
      rewrite Nat.add_1_r in N2. eapply hist_chain; eauto. }
  assert (FA : Forall (fun s => d_body s <> None) (s :: l)).
  { constructor; [destruct S0 as (b0 & _ & X & _); congruence|]. eapply follows_body; eauto. }
  destruct (insert_spec (s :: l) h FA) as (h' & EI & A1 & A2 & A3 & A4).
  exists h', (last l s). split; [|split].
  - unfold Audit. cbn [Validate NewSTRHistoryRange r_error r_df is_error]. cbn [map bind Validate]. unfold Validate. cbn [r_error r_df]. 
    change (is_error ReqSuccess) with false. cbv iota. cbn [bind].
    change (Some s :: map Some l) with (map Some (s :: l)). rewrite OKD. cbn [bind]. rewrite EI. reflexivity.
  - rewrite A3, last_cons. reflexivity.
  - destruct l as [|y l] using rev_ind.
    + cbn [length last] in *. replace (Nat.min b (dupdates ops)) with a by lia. exact P0.
    + clear IHl. rewrite last_last. rewrite app_comm_cons, app_length in LS. cbn [length] in LS.
      destruct (CH1 (S (length l)) y) as (PY & _).
      { cbn [nth_error]. rewrite nth_error_app2 by lia. rewrite Nat.sub_diag. reflexivity. }
      replace (a + S (length l)) with (Nat.min b (dupdates ops)) in PY by lia. exact PY.
Qed.
Print Assumptions C37_honest_history_accepted.

(** ** C38 *)

(** Provided saved snapshots handed to [InitHistory] were verified, each
    directory known to the log is served from a signed hash chain starting with
    the pinned initial STR whose signature digest is its identity, and all other
    identities are unknown. *)
Theorem C38_log_serves_chain : forall (C : Crypto) ops l,
  log_run [] ops = Ok l -> Forall good_init ops -> (N.of_nat (received ops) < 2 ^ 64)%N ->
  forall id,
  (forall a b, GetObservedSTRs l id a b = Ok (NewErrorResponse ReqUnknownDirectory)) \/
  exists addr pk s0 snaps chain, In (LInit addr pk (Some s0 :: snaps)) ops /\
    epoch_of s0 = Some 0%N /\ Digest [sig_of s0] = id /\
    follows pk s0 chain /\ serves l id (s0 :: chain).
Proof.
  intros C ops l R G B id.
  destruct (log_run_inv ops [] [] l) as (LI & _); auto. { intros ? ? X. discriminate. } cbn [app] in LI.
  destruct (map_get beq id l) as [h|] eqn:M.
  - right. destruct (LI id h M) as (s0 & chain & HI & LC & addr & snaps & IN).
    exists addr, (au_key (h_aud h)), s0, snaps, chain. split; auto.
    pose proof HI as [(b & B0 & E0 & ID) HF _ _]. unfold epoch_of, sig_of. rewrite B0. simpl. rewrite E0. split; auto. split; auto. split; auto.
    eapply observed_spec; eauto. lia.
  - left. intros a b. unfold GetObservedSTRs. rewrite M. reflexivity.
Qed.
Print Assumptions C38_log_serves_chain.

(** The log is append-only: whatever is audited later, recorded STRs are never
    changed or dropped. *)
Theorem C38_append_only : forall (C : Crypto) ops1 ops2 l1 l2 id chain,
  log_run [] ops1 = Ok l1 -> log_run l1 ops2 = Ok l2 ->
  Forall good_init (ops1 ++ ops2) -> (N.of_nat (received (ops1 ++ ops2)) < 2 ^ 64)%N ->
  serves l1 id chain -> exists more, serves l2 id (chain ++ more).
Proof.
  intros C ops1 ops2 l1 l2 id chain R1 R2 G B S.
  apply Forall_app in G. destruct G as (G1 & G2).
  destruct (log_run_inv ops1 [] [] l1) as (LI & _); auto. { intros ? ? X. discriminate. } cbn [app] in LI.
  destruct (log_run_inv ops2 ops1 l1 l2 LI G2 R2) as (LI2 & EX).
  destruct (map_get beq id l1) as [h|] eqn:M.
  - destruct (LI id h M) as (s0 & c0 & HI & LC & _).
    rewrite received_app in B.
    assert (S0 : serves l1 id (s0 :: c0)) by (eapply observed_spec; eauto; lia).
    rewrite (serves_fun _ _ _ _ S S0).
    destruct (EX id h s0 c0 M HI) as (h' & more & M' & LM & HI'). exists more.
    cbn [app]. eapply observed_spec; eauto. rewrite app_length. lia.
  - exfalso. specialize (S 0 0). unfold GetObservedSTRs in S. rewrite M in S. simpl in S.
    destruct (length chain <=? 0); discriminate.
Qed.
Print Assumptions C38_append_only.


(** Exactly what is appended by one call of [Audit]: nothing on an error, and
    otherwise the received STRs (without the first one if it repeats the last
    recorded). *)
Theorem C38_audit_appends : forall (C : Crypto) ops l id h msg h' err chain,
  log_run [] ops = Ok l -> Forall good_init ops ->
  (N.of_nat (received (ops ++ [LAudit id msg])) < 2 ^ 64)%N ->
  map_get beq id l = Some h -> Audit h msg = Ok (h', err) ->
  serves l id chain ->
  match err with
  | Some _ => serves (map_set beq id h' l) id chain
  | None => exists x xs, r_df msg = Some (DHistory (Some (map Some (x :: xs)))) /\
      ((x = last chain x /\ serves (map_set beq id h' l) id (chain ++ xs)) \/
       (x <> last chain x /\ serves (map_set beq id h' l) id (chain ++ x :: xs)))
  end.
Proof.
  intros C ops l id h msg h' err chain R G B M A S.
  destruct (log_run_inv ops [] [] l) as (LI & _); auto. { intros ? ? X. discriminate. } cbn [app] in LI.
  destruct (LI id h M) as (s0 & c0 & HI & LC & _). rewrite received_app in B.
  assert (S0 : serves l id (s0 :: c0)) by (eapply observed_spec; eauto; lia).
  rewrite (serves_fun _ _ _ _ S S0) in *. clear S.
  pose proof (audit_inv _ _ _ _ _ _ _ HI A) as X. destruct err as [e|].
  - subst h'. eapply observed_spec; [apply map_get_set_same, beq_eq|eauto|lia].
  - destruct X as (x & xs & l' & D & HI' & EL & _). exists x, xs. split; auto.
    assert (Bl : length l' <= S (length xs)) by (rewrite EL; destruct (dir_eqb _ _); cbn [length]; lia).
    assert (SV : serves (map_set beq id h' l) id (s0 :: c0 ++ l')).
    { eapply observed_spec; [apply map_get_set_same, beq_eq|eauto|]. rewrite app_length.
      unfold received in B at 2. cbn [map list_sum fold_right op_size] in B. rewrite D, map_length in B. cbn [length] in B. lia. }
    rewrite last_cons. destruct (dir_eqb x (last c0 s0)) eqn:Q; subst l'.
    + left. apply dir_eqb_eq in Q. auto.
    + right. split; [|exact SV]. intro Q'. apply dir_eqb_eq in Q'. congruence.
Qed.
Print Assumptions C38_audit_appends.

(** ** C39 *)

(** A log that was initialised with one STR per directory holds only signed
    hash chains, whatever it was given to audit. *)
Theorem C39_fresh_log_verified : forall (C : Crypto) ops l,
  log_run [] ops = Ok l -> (N.of_nat (received ops) < 2 ^ 64)%N ->
  (forall addr pk snaps, In (LInit addr pk snaps) ops -> exists s0, snaps = [Some s0]) ->
  forall id a b strs, GetObservedSTRs l id (N.of_nat a) (N.of_nat b) = Ok (NewSTRHistoryRange strs) ->
  exists addr pk s0 s rest, In (LInit addr pk [Some s0]) ops /\ Digest [sig_of s0] = id /\
    strs = map Some (s :: rest) /\ epoch_of s = Some (N.of_nat a) /\
    (s = s0 \/ signed_by pk s) /\ follows pk s rest /\ length rest = b - a.
Proof.
  intros C ops l R B G id a b strs O.
  assert (GI : Forall good_init ops).
  { apply Forall_forall. intros [addr pk snaps|? ?] I; [|exact Logic.I]. destruct (G _ _ _ I) as (s0 & ->). exists s0, []. split; [reflexivity|exact Logic.I]. }
  destruct (C38_log_serves_chain C ops l R GI B id) as [U|(addr & pk & s0 & snaps & chain & IN & E0 & ID & F & SV)].
  { rewrite U in O. discriminate O. }
  destruct (G _ _ _ IN) as (x & X). injection X as <- ->.
  exists addr, pk, s0. rewrite SV in O.
  destruct (Nat.ltb_spec b a) as [L1|L1]; [discriminate O|]. destruct (Nat.leb_spec (length (s0 :: chain)) b) as [L2|L2]; [discriminate O|].
  cbn [orb] in O. assert (O' : strs = map Some (firstn (S b - a) (skipn a (s0 :: chain)))) by (unfold NewSTRHistoryRange in O; remember (map Some (firstn (S b - a) (skipn a (s0 :: chain)))) as Y; congruence).
  clear O. rewrite O'. clear O'. cbn [length] in L2.
  assert (LB : (N.of_nat (length chain) < 2 ^ 64)%N).
  { destruct (log_run_inv ops [] [] l) as (LI & _); auto. { intros ? ? Y. discriminate. } cbn [app] in LI.
    destruct (map_get beq id l) as [h|] eqn:M.
    - destruct (LI id h M) as (s1 & c1 & HI & LC & _).
      assert (S0 : serves l id (s1 :: c1)) by (eapply observed_spec; eauto; lia).
      pose proof (serves_fun _ _ _ _ SV S0) as Q. injection Q as _ ->. lia.
    - exfalso. specialize (SV 0 0). unfold GetObservedSTRs in SV. rewrite M in SV. simpl in SV. discriminate. }
  pose proof (numbered_chain pk s0 chain E0 LB F) as NC.
  destruct (nth_error (s0 :: chain) a) as [s|] eqn:NA; [|apply nth_error_None in NA; cbn [length] in NA; lia].
  pose proof (nth_error_split (s0 :: chain) a NA) as (p & q & SP & LP).
  exists s, (firstn (b - a) q). split; auto. split; auto.
  assert (SK : skipn a (s0 :: chain) = s :: q).
  { rewrite SP, skipn_app, <- LP, skipn_all, Nat.sub_diag. reflexivity. }
  assert (LQ : b - a <= length q).
  { apply (f_equal (@length _)) in SP. rewrite app_length in SP. cbn [length] in SP. lia. }
  split. { rewrite SK. replace (S b - a) with (S (b - a)) by lia. reflexivity. }
  split; [apply NC; auto|]. split; [|split].
  - destruct p as [|y p]; cbn [app] in SP; injection SP as -> SP; [auto|]. right.
    rewrite SP in F. apply follows_app in F. destruct F as (_ & F & _). exact F.
  - assert (FQ : follows pk s q).
    { destruct p as [|y p]; cbn [app] in SP; injection SP as -> SP; [rewrite <- SP; auto|].
      rewrite SP in F. apply follows_app in F. destruct F as (_ & _ & _ & F). exact F. }
    rewrite <- (firstn_skipn (b - a) q) in FQ. apply follows_app in FQ. apply FQ.
  - rewrite firstn_length. lia.
Qed.
Print Assumptions C39_fresh_log_verified.

(** As stated the property is false: [InitHistory] records saved snapshots
    after the first without looking at them.  For any STR whatsoever with a
    body, signed or not, the log answers with it afterwards. *)
Theorem C39_verified_refuted : forall (C : Crypto) addr pk s0 s e,
  epoch_of s0 = Some 0%N -> epoch_of s = Some e -> (0 < e < 2 ^ 64 - 1)%N ->
  exists l, InitHistory [] addr pk [Some s0; Some s] = Ok (l, None) /\
    GetObservedSTRs l (Digest [sig_of s0]) e e = Ok (NewSTRHistoryRange [Some s]) /\
    (1 < e -> GetObservedSTRs l (Digest [sig_of s0]) 1 1 = Ok (NewSTRHistoryRange [None]))%N.
Proof.
  intros C addr pk s0 s e E0 E B. unfold epoch_of, sig_of in *.
  destruct (d_body s0) as [b0|] eqn:B0; [|discriminate]. destruct (d_body s) as [b|] eqn:B1; [|discriminate].
  simpl in E0, E. injection E0 as E0. injection E as E.
  unfold InitHistory, ComputeDirectoryIdentity, newDirectoryHistory, updateVerifiedSTR. cbn [deref bind insertRange]. unfold str_epoch, str_sig.
  rewrite B0. cbn [bind]. rewrite E0. cbn [N.eqb negb bind map_get insertRange updateVerifiedSTR]. unfold updateVerifiedSTR, str_epoch.
  cbn [deref bind]. rewrite B1. cbn [bind]. rewrite E.
  eexists. split; [reflexivity|].
  assert (EP : forall x, (x < 2 ^ 64 - 1)%N -> epochs x x = Ok [x]).
  { intros x Hx. unfold epochs, two64. destruct (N.eqb_spec x (2 ^ 64 - 1)); [lia|].
    replace (x + 1 - x)%N with 1%N by lia. change (N.to_nat 1) with 1. simpl. rewrite ?N.add_0_r. reflexivity. }
  unfold GetObservedSTRs. rewrite map_get_set_same by apply beq_eq. cbn [h_aud Aud_Update au_str h_snaps].
  unfold str_epoch. rewrite B1. cbn [bind]. rewrite E, N.ltb_irrefl. cbn [orb]. rewrite EP by lia. cbn [bind map].
  rewrite map_get_set_same by (intros; apply N.eqb_eq). split; [reflexivity|].
  intro L. destruct (N.ltb_spec e 1); [lia|]. cbn [orb]. change (N.ltb 1 1) with false. cbv iota. rewrite EP by reflexivity. cbn [bind map].
  rewrite map_get_set_other by (try (intros; apply N.eqb_eq); lia). reflexivity.
Qed.
Print Assumptions C39_verified_refuted.

(** ** C40 *)

(** What an accepting equivocation check means, exactly. *)
Theorem C40_accepts_iff : forall (C : Crypto) cc msg,
  CheckEquivocation cc msg = Ok None <->
  is_error (r_error msg) = false /\
  exists s0 l, r_df msg = Some (DHistory (Some (map Some (s0 :: l)))) /\
    follows (au_key (cc_aud cc)) s0 l /\ d_body (last l s0) <> None /\
    (last l s0 = au_str (cc_aud cc) \/
     (signed_by (au_key (cc_aud cc)) (last l s0) /\ extends (last l s0) (au_str (cc_aud cc)))).
Proof.
  intros C cc msg. unfold CheckEquivocation, Validate. destruct (is_error (r_error msg)) eqn:IE.
  { cbn [bind]. split; [discriminate|]. intros (X & _). discriminate X. }
  destruct (r_df msg) as [[[df|]|[strs|]]|]; cbn [bind].
  - split.
    + destruct (dp_str df), (dp_ap df); cbn [bind]; discriminate.
    + intros (_ & ? & ? & X & _). discriminate X.
  - split; [discriminate|]. intros (_ & ? & ? & X & _). discriminate X.
  - destruct strs as [|s0 rest]; cbn [bind].
    { split; [discriminate|]. intros (_ & ? & ? & X & _). discriminate X. }
    assert (LM : forall l (d : DirSTR) o, last (map Some (d :: l)) o = Some (last l d)).
    { induction l as [|y l IH]; intros d o; [reflexivity|]. cbn [map]. rewrite last_cons. change (Some y :: map Some l) with (map Some (y :: l)).
      rewrite IH, last_cons. reflexivity. }
    assert (CHK : forall l d, CheckSTRAgainstVerified (cc_aud cc) (last (map Some (d :: l)) None) = Ok None <->
      d_body (last l d) <> None /\ (last l d = au_str (cc_aud cc) \/
       (signed_by (au_key (cc_aud cc)) (last l d) /\ extends (last l d) (au_str (cc_aud cc))))).
    { intros l d. rewrite LM, check_ok. split.
      - intros (s & X & NB & D). injection X as <-. auto.
      - intros (NB & D). eauto. }
    split.
    + intro H. split; auto. destruct rest as [|r rest].
      * cbn [bind] in H. destruct s0 as [s0|]; [|discriminate H]. apply (CHK []) in H. exists s0, []. split; [reflexivity|]. split; [exact I|]. exact H.
      * destruct s0 as [s0|].
        -- destruct (VerifySTRRange (cc_aud cc) (Some s0) (r :: rest)) as [[e|]|] eqn:V; cbn [bind] in H; [discriminate H| |discriminate H].
           apply range_ok in V. destruct V as (l & E & F). rewrite E in H. apply (CHK l s0) in H. exists s0, l. rewrite E. auto.
        -- exfalso. clear -H. cbn [VerifySTRRange] in H. destruct r as [r|]; [|discriminate H].
           unfold verifySTRConsistency in H. destruct (DirSTR_Serialize r); cbn [bind] in H; [|discriminate H].
           destruct (str_sig r); cbn [bind] in H; [|discriminate H]. destruct (negb _); [discriminate H|discriminate H].
    + intros (_ & s & l & X & F & NB & D). injection X as -> ->.
      assert (V : (match map Some l with [] => Ok None | _ => VerifySTRRange (cc_aud cc) (Some s) (map Some l) end) = Ok None).
      { destruct l as [|y l]; [reflexivity|]. apply range_ok. eauto. }
      rewrite V. cbn [bind]. apply (CHK l s). auto.
  - split; [discriminate|]. intros (_ & ? & ? & X & _). discriminate X.
  - split; [discriminate|]. intros (_ & ? & ? & X & _). discriminate X.
Qed.
Print Assumptions C40_accepts_iff.

(** If the check accepts, the auditor's STR for the client's epoch carries the
    same signature as the client's verified STR, unless the two signatures
    collide under the hash. *)
Theorem C40_same_view : forall (C : Crypto) cc msg strs s e,
  CheckEquivocation cc msg = Ok None ->
  r_df msg = Some (DHistory (Some strs)) -> In (Some s) strs ->
  (forall x, In (Some x) strs -> exists n, epoch_of x = Some n /\ n + N.of_nat (length strs) < 2 ^ 64)%N ->
  epoch_of s = Some e -> epoch_of (au_str (cc_aud cc)) = Some e ->
  sig_of s = sig_of (au_str (cc_aud cc)) \/
  collision_between [sig_of s] [sig_of (au_str (cc_aud cc))].
Proof.
  intros C cc msg strs s e K D IN BD ES EV. apply C40_accepts_iff in K. destruct K as (_ & s0 & l & D' & F & NB & L).
  rewrite D in D'. injection D' as ->. 
  destruct (BD s0 (or_introl eq_refl)) as (n0 & E0 & B0). cbn [length] in B0. rewrite map_length in B0.
  assert (EP : forall k x, nth_error (s0 :: l) k = Some x -> epoch_of x = Some (n0 + N.of_nat k)%N).
  { intros [|k] x Hx; cbn [nth_error] in Hx; [injection Hx as <-; rewrite E0; f_equal; lia|].
    rewrite (follows_epochs _ l s0 n0 E0 ltac:(lia) F k x Hx). f_equal. lia. }
  assert (IN' : In s (s0 :: l)).
  { change (In (Some s) (map Some (s0 :: l))) in IN. apply in_map_iff in IN. destruct IN as (y & Y & IN). injection Y as <-. exact IN. }
  apply In_nth_error in IN'. destruct IN' as (k & NK). pose proof (EP k s NK) as EK. rewrite ES in EK. injection EK as EK.
  assert (LN : nth_error (s0 :: l) (length l) = Some (last l s0)).
  { clear. destruct l as [|z l] using rev_ind; [reflexivity|].
    rewrite last_last, app_length. simpl length. rewrite Nat.add_1_r. cbn [nth_error].
    rewrite nth_error_app2 by lia. rewrite Nat.sub_diag. reflexivity. }
  pose proof (EP _ _ LN) as EL. destruct L as [L|(_ & L)].
  - left. rewrite L in EL. rewrite EV in EL. injection EL as EL. assert (k = length l) by lia. subst k.
    rewrite NK in LN. injection LN as ->. rewrite L. reflexivity.
  - pose proof L as L'. apply extends_epoch in L. destruct L as (b & b' & X1 & X2 & Q1 & Q2 & Q3).
    assert (EE : (s_epoch b = n0 + N.of_nat (length l))%N) by (unfold epoch_of in EL; rewrite X1 in EL; simpl in EL; congruence).
    assert (EE' : s_epoch b' = e) by (unfold epoch_of in EV; rewrite X2 in EV; simpl in EV; congruence).
    assert (KL : k < S (length l)) by (change (k < length (s0 :: l)); apply nth_error_Some; congruence).
    rewrite EE', EE in Q1. unfold add64, two64 in Q1. rewrite N.mod_small in Q1 by lia.
    assert (KL' : S k = length l) by lia.
    destruct l as [|y l] using rev_ind; [cbn [length] in KL'; lia|]. clear IHl. rewrite app_length in KL'. cbn [length] in KL'.
    rewrite last_last in *. apply follows_app in F. destruct F as (_ & F). cbn [follows] in F. destruct F as (_ & F & _).
    assert (SK : last l s0 = s).
    { assert (LN' : nth_error (s0 :: l) (length l) = Some (last l s0)).
      { clear. destruct l as [|z l] using rev_ind; [reflexivity|].
        rewrite last_last, app_length. simpl length. rewrite Nat.add_1_r. cbn [nth_error].
        rewrite nth_error_app2 by lia. rewrite Nat.sub_diag. reflexivity. }
      rewrite app_comm_cons, nth_error_app1 in NK by (cbn [length]; lia).
      replace k with (length l) in NK by lia. rewrite LN' in NK. congruence. }
    rewrite SK in F. apply extends_epoch in F. destruct F as (b1 & b2 & Y1 & Y2 & _ & _ & Q4).
    rewrite X1 in Y1. injection Y1 as <-. unfold sig_of. rewrite X2, Y2.
    destruct (beq_spec (s_sig b2) (s_sig b')) as [|NE]; [auto|]. right. exists (s_sig b2), (s_sig b').
    split; [left; reflexivity|]. split; [left; reflexivity|]. split; auto.
    rewrite Q3 in Q4. unfold Digest in Q4. cbn [concat] in Q4. rewrite !app_nil_r in Q4. auto.
Qed.
Print Assumptions C40_same_view.

(** Conversely a truthful log is accepted: whatever part of the directory's
    chain ending at the client's epoch (or the next one) is shown. *)
Theorem C40_truthful_accepted : forall (C : Crypto) cc s0 l,
  follows (au_key (cc_aud cc)) s0 l -> d_body s0 <> None ->
  (last l s0 = au_str (cc_aud cc) \/
   exists l', l = l' ++ [last l s0] /\ last l' s0 = au_str (cc_aud cc)) ->
  CheckEquivocation cc (NewSTRHistoryRange (map Some (s0 :: l))) = Ok None.
Proof.
  intros C cc s0 l F NB D. apply C40_accepts_iff. split; [reflexivity|]. exists s0, l. split; [reflexivity|]. split; auto.
  assert (NL : d_body (last l s0) <> None).
  { destruct l as [|y l] using rev_ind; auto. rewrite last_last. apply follows_body in F. rewrite Forall_forall in F. apply F. apply in_app_iff. right. left. reflexivity. }
  split; auto. destruct D as [D|(l' & E & D)]; auto. right. rewrite E in F. apply follows_app in F. destruct F as (_ & F). cbn [follows] in F.
  rewrite D in F. tauto.
Qed.
Print Assumptions C40_truthful_accepted.

(** A log or directory that answers with a message of the wrong kind, instead
    of an STR history, crashes the client and the auditor. *)
Theorem C40_wrong_kind_crashes_refuted : forall (C : Crypto) cc h e ap aps s strs tb,
  is_error e = false ->
  let msg := mkResp e (Some (DProof (Some (mkDP (ap :: aps) (s :: strs) tb)))) in
  CheckEquivocation cc msg = Panic /\ Audit h msg = Panic.
Proof. intros C cc h e ap aps s strs tb E msg. unfold CheckEquivocation, Audit, Validate, msg. cbn [r_error r_df]. rewrite E. split; reflexivity. Qed.
Print Assumptions C40_wrong_kind_crashes_refuted.
(** ... and so does a null STR at the head of the history. *)
Theorem C40_null_str_crashes_refuted : forall (C : Crypto) cc h e, is_error e = false ->
  let msg := mkResp e (Some (DHistory (Some [None]))) in
  CheckEquivocation cc msg = Panic /\ Audit h msg = Panic.
Proof. intros C cc h e E msg. unfold CheckEquivocation, Audit, Validate, msg. cbn [r_error r_df]. rewrite E. split; reflexivity. Qed.
Print Assumptions C40_null_str_crashes_refuted.

(** ** Non-vacuity: the STRs of a toy directory with two updates are recorded
    by an audit log, in two steps, and a client at epoch 1 accepts what the log
    then shows; a log that shows a forked chain is rejected. *)
Definition aud_dir (ops : list dir_op) : result Directory :=
  do d0 <- @Directory_New ToyCrypto 5 [x11] [x10] 8 true (Some [x07]) (Some [x08]); @dir_run ToyCrypto d0 ops.
Definition aud_ops (key : bytes) : list dir_op := [DRegister (Some [x01]) [x61] key; DUpdate; DUpdate].
Definition aud_resp (key : bytes) (a b : N) : result Response := do d <- aud_dir (aud_ops key); GetSTRHistory d a b.
Definition aud_strs (r : Response) : list (option DirSTR) := match r_df r with Some (DHistory (Some l)) => l | _ => [] end.
Definition aud_pk : bytes := @sign_pub ToyCrypto [x10].
Definition aud_log : result (bytes * AuditLog * list log_op) :=
  do r0 <- aud_resp [x31] 0 0; do r1 <- aud_resp [x31] 1 1; do r2 <- aud_resp [x31] 1 2;
  do s0 <- deref (hd None (aud_strs r0)); do id <- @ComputeDirectoryIdentity ToyCrypto s0;
  let ops := [LInit [x2f] aud_pk [Some s0]; LAudit id r1; LAudit id r2] in
  do l <- @log_run ToyCrypto [] ops; Ok (id, l, ops).
Definition aud_client : result Checks :=
  do r1 <- aud_resp [x31] 1 1; do s1 <- deref (hd None (aud_strs r1)); Client_New s1 true aud_pk.
Definition is_ok_none (r : result (option ErrorCode)) : bool := match r with Ok None => true | _ => false end.
Example aud_nonvacuous :
  (match aud_log, aud_client, aud_resp [x32] 0 1 with
   | Ok (id, l, ops), Ok cc, Ok forked =>
       match GetObservedSTRs l id 0 2, GetObservedSTRs l id 0 1 with
       | Ok all, Ok upto =>
           (length (aud_strs all) =? 3) && forallb (fun s => match s with Some _ => true | None => false end) (aud_strs all) &&
           (received ops =? 4) &&
           is_ok_none (@CheckEquivocation ToyCrypto cc all) && is_ok_none (@CheckEquivocation ToyCrypto cc upto) &&
           negb (is_ok_none (@CheckEquivocation ToyCrypto cc forked))
       | _, _ => false
       end
   | _, _, _ => false
   end) = true.
Proof. vm_compute. reflexivity. Qed.
(** The calls of the example satisfy the hypotheses of C38 and C39. *)
Example aud_nonvacuous_init : forall id l ops, aud_log = Ok (id, l, ops) ->
  @log_run ToyCrypto [] ops = Ok l /\ (forall addr pk snaps, In (LInit addr pk snaps) ops -> exists s0, snaps = [Some s0]).
Proof.
  intros id l ops H. unfold aud_log in H.
  destruct (aud_resp [x31] 0 0) as [r0|]; [|discriminate H]. destruct (aud_resp [x31] 1 1) as [r1|]; [|discriminate H].
  destruct (aud_resp [x31] 1 2) as [r2|]; [|discriminate H]. cbn [bind] in H.
  destruct (deref (hd None (aud_strs r0))) as [s0|]; cbn [bind] in H; [|discriminate H].
  destruct (ComputeDirectoryIdentity s0) as [i|]; cbn [bind] in H; [|discriminate H].
  remember (log_run [] [LInit [x2f] aud_pk [Some s0]; LAudit i r1; LAudit i r2]) as R eqn:ER. destruct R as [l'|]; cbn [bind] in H; [|discriminate H].
  injection H as <- <- <-. split; auto.
  intros addr pk snaps [X|[X|[X|[]]]]; [|discriminate X|discriminate X]. injection X as <- <- <-. eauto.
Qed.
