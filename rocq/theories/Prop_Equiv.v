(** C83: users who check with the same audit log agree, and where this fails.

    Reading guide ([Equiv.v]): [careful cc l cc']: a user who goes through the
    interactions [l] (answers of a server that may do anything) and never moves
    to a new STR on a failed check; [accepted cc l name ap s]: in the course of
    this an answer about [name] with path [ap] and STR [s] was accepted; [says ap
    v]: the path shows key [v], or absence; [evidence]: what convicts the server. *)
From Coq Require Import List NArith ZArith Lia Bool Arith.
From Verif Require Import Base Utils Crypto Tree TreeFacts TreeSpec TreeHist SoundFacts STR PAD PADSpec PADFacts Protocol Directory DirSpec DirFacts DirMain
  Auditor AudSpec AudFacts Client ClientSpec ClientFacts JointFacts Prop_Proof Prop_PAD Prop_Directory Prop_Auditor Prop_Client Equiv Prop_VRF.
Import ListNotations.

Lemma log_run_app {C : Crypto} : forall a l b, log_run l (a ++ b) = (do l' <- log_run l a; log_run l' b).
Proof.
  induction a as [|op a IH]; intros l b; [reflexivity|]. cbn [app log_run]. destruct (log_step l op) as [l'|]; cbn [bind]; auto.
Qed.

Section Users.
  Context {C : Crypto} (OK : CryptoOk C).

  (** A user who starts at [s0] with the directory's key, is careful, and whose
      last check against the log [log] was passed. *)
  Record checked (pk : bytes) (s0 : DirSTR) (log : AuditLog) (cc0 : Checks) (l : list interaction) (cc : Checks) : Prop := {
    ck_new : Client_New s0 true pk = Ok cc0;
    ck_run : careful cc0 l cc;
    ck_few : (N.of_nat (length l) < 2 ^ 64 - 2)%N;
    ck_log : exists a b msg, GetObservedSTRs log (Digest [sig_of s0]) a b = Ok msg /\ CheckEquivocation cc msg = Ok None }.

  Lemma user_chain pk s0 log cc0 l cc : epoch_of s0 = Some 0%N -> checked pk s0 log cc0 l cc ->
    exists n X, chained pk X /\ sized X /\ nth_error X n = Some (au_str (cc_aud cc)) /\ length X = S n /\ nth_error X 0 = Some s0 /\
      incl X (s0 :: seen l) /\ (N.of_nat (S n) < 2 ^ 64)%N /\
      (forall uname ap s, accepted cc0 l uname ap s -> exists k, k <= n /\ nth_error X k = Some s /\ epoch_of s = Some (N.of_nat k) /\
        exists pol b leaf v, d_pol s = Some pol /\ d_body s = Some b /\ ap_leaf ap = Some leaf /\
           vrf_verify (pol_vrf pol) uname (ap_lookup ap) (ap_vrf ap) = true /\ Verify ap uname v (s_hash b) = Ok None).
  Proof.
    intros E0 [CN CR CF _]. cbn in CN. injection CN as <-.
    destruct (careful_chain OK l _ cc (eq_refl : cc_useTBs (mkCC (mkAud pk s0) [] true []) = true) CR) as (c & F & SZ & L & _ & LE & IN & ACC). cbn [cc_aud au_key au_str] in *.
    exists (length c), (s0 :: c).
    assert (CH : chained pk (s0 :: c)) by (apply follows_chained; auto; lia).
    split; [exact CH|]. split; [apply Forall_sized, SZ|]. split.
    { rewrite L. clear. destruct c as [|y c] using rev_ind; [reflexivity|].
      rewrite last_last, app_length. cbn [length]. rewrite Nat.add_1_r. cbn [nth_error]. rewrite nth_error_app2 by lia. rewrite Nat.sub_diag. reflexivity. }
    split; [reflexivity|]. split; [reflexivity|]. split; [intros x [<-|Q]; [left; reflexivity|right; auto]|]. split; [lia|].
    intros uname ap s A. destruct (ACC uname ap s A) as (I & Q). apply In_nth_error in I as (k & K). exists k.
    assert (KL : k < length (s0 :: c)) by (apply nth_error_Some; congruence). cbn [length] in KL.
    split; [lia|]. split; [exact K|]. split; [apply (proj1 CH); exact K|exact Q].
  Qed.

  Lemma log_chain ops log pk s0 : log_run [] ops = Ok log -> Forall good_init ops -> (N.of_nat (received ops) < 2 ^ 64)%N ->
    (forall addr pk' s snaps, In (LInit addr pk' (Some s :: snaps)) ops -> Digest [sig_of s] = Digest [sig_of s0] -> pk' = pk) ->
    (forall a b, GetObservedSTRs log (Digest [sig_of s0]) a b = Ok (NewErrorResponse ReqUnknownDirectory)) \/
    exists t0 c, serves log (Digest [sig_of s0]) (t0 :: c) /\ follows pk t0 c /\ epoch_of t0 = Some 0%N.
  Proof.
    intros R G B K. destruct (C38_log_serves_chain C ops log R G B (Digest [sig_of s0])) as [U|(addr & pk' & t0 & snaps & c & I & E & D & F & S)]; [left; exact U|].
    right. exists t0, c. rewrite <- (K _ _ _ _ I D). auto.
  Qed.

  Lemma unknown_rejected cc : CheckEquivocation cc (NewErrorResponse ReqUnknownDirectory) <> Ok None.
  Proof. intros X. apply C40_accepts_iff in X as (_ & ? & ? & D & _). discriminate D. Qed.

  (** Agreement of two chains at a common epoch makes the paths comparable. *)
  Lemma verdict pk X Y n k uname apA apB sA sB vA vB held s0 :
    @vrf_keys_sized C -> chained pk X -> chained pk Y -> sized X -> sized Y -> nth_error X 0 = Some s0 -> nth_error Y 0 = Some s0 ->
    incl X held -> incl Y held ->
    (exists x y, nth_error X n = Some x /\ nth_error Y n = Some y /\ sig_of x = sig_of y) -> k <= n ->
    nth_error X k = Some sA -> nth_error Y k = Some sB ->
    (exists pol b leaf v, d_pol sA = Some pol /\ d_body sA = Some b /\ ap_leaf apA = Some leaf /\
       vrf_verify (pol_vrf pol) uname (ap_lookup apA) (ap_vrf apA) = true /\ Verify apA uname v (s_hash b) = Ok None) ->
    (exists pol b leaf v, d_pol sB = Some pol /\ d_body sB = Some b /\ ap_leaf apB = Some leaf /\
       vrf_verify (pol_vrf pol) uname (ap_lookup apB) (ap_vrf apB) = true /\ Verify apB uname v (s_hash b) = Ok None) ->
    says apA vA -> says apB vB -> vA = vB \/ evidence pk held uname apA apB.
  Proof.
    intros VK CX CY SX SY X0 Y0 IX IY (x & y & Hx & Hy & E) LE KA KB (p1 & b1 & l1 & w1 & P1 & B1 & L1 & V1 & W1) (p2 & b2 & l2 & w2 & P2 & B2 & L2 & V2 & W2) T1 T2.
    destruct (agree_down OK pk X Y CX CY SX SY n x y Hx Hy E) as [A|A]; [|right; exact (blame_held pk X Y held uname apA apB IX IY A)].
    destruct (A k sA sB LE KA KB) as (_ & Q).
    assert (R : s_hash b1 = s_hash b2 /\ pol_vrf p1 = pol_vrf p2).
    { destruct k as [|k].
      - assert (sA = sB) by congruence. subst sB. rewrite P1 in P2. rewrite B1 in B2. injection P2 as <-. injection B2 as <-. auto.
      - destruct (ser_same OK pk X Y k sA sB CX CY SX SY KA KB (Q ltac:(lia))) as (c1 & c2 & q1 & q2 & D1 & D2 & D3 & D4 & H1 & _ & H2).
        rewrite B1 in D1. rewrite B2 in D2. rewrite P1 in D3. rewrite P2 in D4. injection D1 as <-. injection D2 as <-. injection D3 as <-. injection D4 as <-.
        split; [exact H1|]. apply (vrf_key_same p1 p2); auto. exact (VK _ _ _ _ V1). exact (VK _ _ _ _ V2). }
    destruct R as (R1 & R2). rewrite <- R2 in V2. rewrite <- R1 in W2.
    destruct (same_root OK uname apA apB vA vB w1 w2 (pol_vrf p1) (s_hash b1) V1 V2 W1 W2 T1 T2) as [Z|[Z|Z]]; [left; exact Z| |].
    - right. right. right. left. exact Z.
    - right. right. right. right. exact Z.
  Qed.
End Users.

(** Two users, starting from the same pinned STR and key, in front of a server
    that answers whatever it likes; both are careful and check, at times of their
    choosing, with the same (honest) audit log, which the server also feeds as it
    likes; [log'] is a later state of the log [log].  Provided the tree hashes in
    the STRs recorded by the log have the length of a hash, for every name and
    epoch about which both accepted an answer the answers say the same, or
    evidence against the server can be read off what they hold. *)
Theorem C83_no_equivocation : forall (C : Crypto), CryptoOk C -> vrf_keys_sized ->
  forall pk s0 ops ops' log log' rec ccA lA ccA' ccB lB ccB' uname apA apB sA sB vA vB,
  epoch_of s0 = Some 0%N ->
  log_run [] ops = Ok log -> log_run log ops' = Ok log' -> Forall good_init (ops ++ ops') ->
  (N.of_nat (received (ops ++ ops')) < 2 ^ 64)%N ->
  (forall addr pk' s snaps, In (LInit addr pk' (Some s :: snaps)) (ops ++ ops') -> Digest [sig_of s] = Digest [sig_of s0] -> pk' = pk) ->
  serves log' (Digest [sig_of s0]) rec -> (N.of_nat (length rec) < 2 ^ 64)%N -> Forall hash_sized (tl rec) ->
  checked pk s0 log ccA lA ccA' -> checked pk s0 log' ccB lB ccB' ->
  accepted ccA lA uname apA sA -> accepted ccB lB uname apB sB -> epoch_of sA = epoch_of sB ->
  says apA vA -> says apB vB ->
  vA = vB \/ evidence pk (s0 :: seen lA ++ seen lB ++ rec) uname apA apB.
Proof.
  intros C OK VK pk s0 ops ops' log log' rec ccA lA ccA' ccB lB ccB' uname apA apB sA sB vA vB
    E0 R R' G B K SV LR SZ CA CB AA AB EE TA TB.
  assert (RR : log_run [] (ops ++ ops') = Ok log') by (rewrite log_run_app, R; exact R').
  assert (G1 : Forall good_init ops) by (apply Forall_app in G; tauto).
  assert (B1 : (N.of_nat (received ops) < 2 ^ 64)%N) by (rewrite received_app in B; lia).
  destruct (user_chain OK pk s0 log ccA lA ccA' E0 CA) as (n & X & CX & SX & HX & LX & X0 & IX & NX & ACX).
  destruct (user_chain OK pk s0 log' ccB lB ccB' E0 CB) as (m & Y & CY & SY & HY & LY & Y0 & IY & NY & ACY).
  destruct (ACX _ _ _ AA) as (k & Kn & KA & EA & QA). destruct (ACY _ _ _ AB) as (k' & Km & KB & EB & QB).
  assert (k' = k) by (rewrite EA, EB in EE; injection EE as EE; apply Nat2N.inj in EE; auto). subst k'.
  destruct CA as [_ _ _ (a & b & msg & GA & EQA)]. destruct CB as [_ _ _ (a' & b' & msg' & GB & EQB)].
  (* the log *)
  destruct (log_chain _ log' pk s0 RR G B K) as [U|(t0 & c & SV' & F & T0)].
  { exfalso. rewrite U in GB. injection GB as <-. exact (unknown_rejected _ EQB). }
  pose proof (serves_fun _ _ _ _ SV SV') as ER. subst rec. clear SV'. cbn [tl] in SZ.
  assert (CR : chained pk (t0 :: c)) by (apply follows_chained; auto; cbn [length] in LR; lia).
  assert (SR : sized (t0 :: c)) by (apply Forall_sized, SZ).
  destruct (log_chain ops log pk s0 R G1 B1) as [U|(u0 & d & SVa & Fa & U0)].
  { intros. eapply K; eauto. apply in_or_app. left. eauto. }
  { exfalso. rewrite U in GA. injection GA as <-. exact (unknown_rejected _ EQA). }
  destruct (C38_append_only C ops ops' log log' _ _ R R' G B SVa) as (more & SVm).
  pose proof (serves_fun _ _ _ _ SVm SV) as PRE.
  assert (CRa : chained pk (u0 :: d)).
  { apply follows_chained; auto. rewrite <- PRE, app_length in LR. cbn [length] in LR. lia. }
  destruct (anchored pk X (u0 :: d) log _ a b ccA' msg n CRa ltac:(discriminate) SVa HX CX NX GA EQA) as (z & Z & ZA).
  destruct (anchored pk Y (t0 :: c) log' _ a' b' ccB' msg' m CR ltac:(discriminate) SV HY CY NY GB EQB) as (w & W & WB).
  assert (Z' : nth_error (t0 :: c) n = Some z).
  { rewrite <- PRE. rewrite nth_error_app1; [exact Z|]. apply nth_error_Some. congruence. }
  set (held := s0 :: seen lA ++ seen lB ++ t0 :: c).
  assert (HIX : incl X held) by (intros x Q; apply IX in Q as [<-|Q]; [left; auto|right; apply in_or_app; auto]).
  assert (HIY : incl Y held) by (intros x Q; apply IY in Q as [<-|Q]; [left; auto|right; apply in_or_app; right; apply in_or_app; auto]).
  assert (HIR : incl (t0 :: c) held) by (intros x Q; right; apply in_or_app; right; apply in_or_app; auto).
  assert (HIA : incl (u0 :: d) held).
  { intros x Q. apply HIR. rewrite <- PRE. apply in_or_app. left. exact Q. }
  assert (COL : forall P Q, incl P held -> incl Q held -> collision_between (map sig_of P) (map sig_of Q) -> evidence pk held uname apA apB).
  { intros P Q H1 H2 H3. apply (blame_held pk P Q); auto. left. exact H3. }
  destruct ZA as [ZA|ZA]; [|right; eapply COL; [exact HIX|exact HIA|exact ZA]].
  destruct WB as [WB|WB]; [|right; eapply COL; [exact HIY|exact HIR|exact WB]].
  clearbody held.
  destruct (Nat.le_gt_cases n m) as [LE|GT].
  - (* A checked at the earlier epoch: B agrees with the log down to it *)
    destruct (agree_down OK pk Y (t0 :: c) CY CR SY SR m _ _ HY W WB) as [A|A]; [|right; eapply blame_held; [exact HIY|exact HIR|exact A]].
    destruct (nth_error Y n) as [yn|] eqn:YN; [|apply nth_error_None in YN; lia].
    destruct (A n yn z LE YN Z') as (SS & _).
    eapply (verdict OK pk X Y n k); eauto. exists (au_str (cc_aud ccA')), yn. split; auto. split; auto. congruence.
  - destruct (agree_down OK pk X (t0 :: c) CX CR SX SR n _ _ HX Z' ZA) as [A|A]; [|right; eapply blame_held; [exact HIX|exact HIR|exact A]].
    destruct (nth_error X m) as [xm|] eqn:XM; [|apply nth_error_None in XM; lia].
    destruct (A m xm w ltac:(lia) XM W) as (SS & _).
    eapply (verdict OK pk X Y m k); eauto. exists xm, (au_str (cc_aud ccB')). split; auto. split; auto. congruence.
Qed.
Print Assumptions C83_no_equivocation.

(** If both check at the same epoch, nothing need be assumed about what the log
    recorded. *)
Theorem C83_same_epoch_checks : forall (C : Crypto), CryptoOk C -> vrf_keys_sized ->
  forall pk s0 ops ops' log log' rec ccA lA ccA' ccB lB ccB' uname apA apB sA sB vA vB,
  epoch_of s0 = Some 0%N ->
  log_run [] ops = Ok log -> log_run log ops' = Ok log' -> Forall good_init (ops ++ ops') ->
  (N.of_nat (received (ops ++ ops')) < 2 ^ 64)%N ->
  (forall addr pk' s snaps, In (LInit addr pk' (Some s :: snaps)) (ops ++ ops') -> Digest [sig_of s] = Digest [sig_of s0] -> pk' = pk) ->
  serves log' (Digest [sig_of s0]) rec -> (N.of_nat (length rec) < 2 ^ 64)%N ->
  checked pk s0 log ccA lA ccA' -> checked pk s0 log' ccB lB ccB' ->
  epoch_of (au_str (cc_aud ccA')) = epoch_of (au_str (cc_aud ccB')) ->
  accepted ccA lA uname apA sA -> accepted ccB lB uname apB sB -> epoch_of sA = epoch_of sB ->
  says apA vA -> says apB vB ->
  vA = vB \/ evidence pk (s0 :: seen lA ++ seen lB ++ rec) uname apA apB.
Proof.
  intros C OK VK pk s0 ops ops' log log' rec ccA lA ccA' ccB lB ccB' uname apA apB sA sB vA vB
    E0 R R' G B K SV LR CA CB SE AA AB EE TA TB.
  assert (RR : log_run [] (ops ++ ops') = Ok log') by (rewrite log_run_app, R; exact R').
  assert (G1 : Forall good_init ops) by (apply Forall_app in G; tauto).
  assert (B1 : (N.of_nat (received ops) < 2 ^ 64)%N) by (rewrite received_app in B; lia).
  destruct (user_chain OK pk s0 log ccA lA ccA' E0 CA) as (n & X & CX & SX & HX & LX & X0 & IX & NX & ACX).
  destruct (user_chain OK pk s0 log' ccB lB ccB' E0 CB) as (m & Y & CY & SY & HY & LY & Y0 & IY & NY & ACY).
  destruct (ACX _ _ _ AA) as (k & Kn & KA & EA & QA). destruct (ACY _ _ _ AB) as (k' & Km & KB & EB & QB).
  assert (k' = k) by (rewrite EA, EB in EE; injection EE as EE; apply Nat2N.inj in EE; auto). subst k'.
  assert (m = n).
  { rewrite (proj1 CX _ _ HX), (proj1 CY _ _ HY) in SE. injection SE as SE. apply Nat2N.inj in SE. auto. } subst m.
  destruct CA as [_ _ _ (a & b & msg & GA & EQA)]. destruct CB as [_ _ _ (a' & b' & msg' & GB & EQB)].
  destruct (log_chain _ log' pk s0 RR G B K) as [U|(t0 & c & SV' & F & T0)].
  { exfalso. rewrite U in GB. injection GB as <-. exact (unknown_rejected _ EQB). }
  pose proof (serves_fun _ _ _ _ SV SV') as ER. subst rec. clear SV'.
  assert (CR : chained pk (t0 :: c)) by (apply follows_chained; auto; cbn [length] in LR; lia).
  destruct (log_chain ops log pk s0 R G1 B1) as [U|(u0 & d & SVa & Fa & U0)].
  { intros. eapply K; eauto. apply in_or_app. left. eauto. }
  { exfalso. rewrite U in GA. injection GA as <-. exact (unknown_rejected _ EQA). }
  destruct (C38_append_only C ops ops' log log' _ _ R R' G B SVa) as (more & SVm).
  pose proof (serves_fun _ _ _ _ SVm SV) as PRE.
  assert (CRa : chained pk (u0 :: d)).
  { apply follows_chained; auto. rewrite <- PRE, app_length in LR. cbn [length] in LR. lia. }
  destruct (anchored pk X (u0 :: d) log _ a b ccA' msg n CRa ltac:(discriminate) SVa HX CX NX GA EQA) as (z & Z & ZA).
  destruct (anchored pk Y (t0 :: c) log' _ a' b' ccB' msg' n CR ltac:(discriminate) SV HY CY NY GB EQB) as (w & W & WB).
  assert (Z' : nth_error (t0 :: c) n = Some z).
  { rewrite <- PRE. rewrite nth_error_app1; [exact Z|]. apply nth_error_Some. congruence. }
  set (held := s0 :: seen lA ++ seen lB ++ t0 :: c).
  assert (HIX : incl X held) by (intros x Q; apply IX in Q as [<-|Q]; [left; auto|right; apply in_or_app; auto]).
  assert (HIY : incl Y held) by (intros x Q; apply IY in Q as [<-|Q]; [left; auto|right; apply in_or_app; right; apply in_or_app; auto]).
  assert (HIR : incl (t0 :: c) held) by (intros x Q; right; apply in_or_app; right; apply in_or_app; auto).
  assert (HIA : incl (u0 :: d) held).
  { intros x Q. apply HIR. rewrite <- PRE. apply in_or_app. left. exact Q. }
  assert (COL : forall P Q, incl P held -> incl Q held -> collision_between (map sig_of P) (map sig_of Q) -> evidence pk held uname apA apB).
  { intros P Q H1 H2 H3. apply (blame_held pk P Q); auto. left. exact H3. }
  destruct ZA as [ZA|ZA]; [|right; eapply COL; [exact HIX|exact HIA|exact ZA]].
  destruct WB as [WB|WB]; [|right; eapply COL; [exact HIY|exact HIR|exact WB]].
  clearbody held. eapply (verdict OK pk X Y n k); eauto.
  exists (au_str (cc_aud ccA')), (au_str (cc_aud ccB')). split; auto. split; auto. congruence.
Qed.
Print Assumptions C83_same_epoch_checks.

(** *** The condition on the recorded tree hashes is needed *)

Section Build.
  Context {C : Crypto} (OK : CryptoOk C).

  (** The log records a verified continuation. *)
  Lemma log_fresh addr pk s0 : epoch_of s0 = Some 0%N ->
    exists h, log_run [] [LInit addr pk [Some s0]] = Ok (map_set beq (Digest [sig_of s0]) h []) /\
      hist_inv h (Digest [sig_of s0]) s0 [] /\ au_key (h_aud h) = pk.
  Proof.
    intros E. pose proof E as E'. unfold epoch_of in E. destruct (d_body s0) as [b|] eqn:B; [|discriminate E]. cbn [option_map] in E. injection E as E.
    assert (SE : str_epoch s0 = Ok 0%N) by (unfold str_epoch; rewrite B, E; reflexivity).
    assert (SG : sig_of s0 = s_sig b) by (unfold sig_of; rewrite B; reflexivity).
    destruct (newDirectoryHistory addr pk s0) as [h|] eqn:N.
    2:{ exfalso. unfold newDirectoryHistory, updateVerifiedSTR in N. cbn [deref bind] in N. rewrite SE in N. discriminate N. }
    destruct (init_inv addr pk s0 [] h h I E' N eq_refl) as (sg & S1 & HI).
    assert (sg = sig_of s0) by (unfold str_sig in S1; rewrite B in S1; injection S1 as <-; auto). subst sg.
    exists h. split; [|split; [exact HI|]].
    - unfold log_run, log_step, InitHistory. cbn [deref bind]. rewrite SE. cbn [bind N.eqb negb].
      unfold ComputeDirectoryIdentity. rewrite SE, S1. cbn [bind N.eqb map_get]. rewrite N. reflexivity.
    - unfold newDirectoryHistory, updateVerifiedSTR in N. cbn [deref bind] in N. rewrite SE in N. injection N as <-. reflexivity.
  Qed.

  Lemma log_grow log id h s0 c l : map_get beq id log = Some h -> hist_inv h id s0 c -> l <> [] ->
    follows (au_key (h_aud h)) (last c s0) l ->
    exists h', log_run log [LAudit id (NewSTRHistoryRange (map Some l))] = Ok (map_set beq id h' log) /\
      hist_inv h' id s0 (c ++ l) /\ au_key (h_aud h') = au_key (h_aud h).
  Proof.
    intros M HI NE F. destruct l as [|x xs]; [contradiction|]. clear NE.
    assert (ST : au_str (h_aud h) = last c s0) by (destruct HI; auto).
    destruct F as (F1 & F2 & F3). pose proof (extends_epoch _ _ F2) as (b & b' & B & B' & EE & _).
    assert (BD : d_body x <> None) by congruence.
    assert (AD : AuditDirectory (h_aud h) (map Some (x :: xs)) = Ok None).
    { apply audit_dir_ok. exists x, xs. split; auto. split; auto. split; [right; rewrite ST; auto|exact F3]. }
    assert (FB : Forall (fun s => d_body s <> None) (x :: xs)) by (constructor; [exact BD|exact (follows_body _ _ _ F3)]).
    destruct (insert_spec (x :: xs) h FB) as (h' & IR & _).
    assert (A : Audit h (NewSTRHistoryRange (map Some (x :: xs))) = Ok (h', None)).
    { unfold Audit, NewSTRHistoryRange. cbn [Validate r_error r_df]. cbn [map] in *. change (is_error ReqSuccess) with false. cbn [bind].
      rewrite AD. cbn [bind]. rewrite IR. reflexivity. }
    exists h'. split.
    - cbn [log_run log_step]. rewrite M, A. reflexivity.
    - pose proof (audit_inv h id s0 c _ h' None HI A) as (x' & xs' & l' & D & HI' & L' & K).
      cbn [NewSTRHistoryRange r_df] in D. injection D as D1 D2. apply map_Some_inj in D2. subst x' xs'.
      assert (ND : dir_eqb x (last c s0) = false).
      { destruct (dir_eqb x (last c s0)) eqn:Q; [|reflexivity]. apply dir_eqb_eq in Q. rewrite Q in B. rewrite B in B'. injection B' as <-.
        symmetry in EE. apply add64_neq in EE. contradiction. }
      rewrite ND in L'. subst l'. auto.
  Qed.

  (** A user's accepted lookup. *)
  Lemma lookup_accepted cc uname ap s k b pol leaf : cc_useTBs cc = true -> cc_tbs cc = [] -> next_str (cc_aud cc) s ->
    d_body s = Some b -> d_pol s = Some pol -> ap_leaf ap = Some leaf -> pn_value leaf = Some k -> ProofType ap = Ok ProofOfInclusion ->
    vrf_verify (pol_vrf pol) uname (ap_lookup ap) (ap_vrf ap) = true -> Verify ap uname (Some k) (s_hash b) = Ok None ->
    let msg := mkResp ReqSuccess (Some (DProof (Some (mkDP [Some ap] [Some s] None)))) in
    exists cc', HandleResponse cc KeyLookupType msg uname None = Ok (cc', None) /\ answer msg ap s /\
      cc_useTBs cc' = true /\ cc_tbs cc' = [] /\ cc_aud cc' = mkAud (au_key (cc_aud cc)) s.
  Proof.
    intros U T N B P L K PT V W msg.
    assert (A : answer msg ap s) by (exists (mkDP [Some ap] [Some s] None), [], []; repeat split).
    assert (AC : acceptable cc KeyLookupType msg uname None).
    { exists (mkDP [Some ap] [Some s] None), ap, [], s, [], pol, b, leaf, ProofOfInclusion.
      split; [reflexivity|]. split; [reflexivity|]. split; [reflexivity|]. split; auto. split; auto. split; auto. split; auto. split; auto. split; auto.
      rewrite K. split; auto. right. split; [reflexivity|]. split; [reflexivity|]. rewrite T. intros tb X. discriminate X. }
    apply handle_accepts_iff in AC as (cc' & H); auto. exists cc'. split; [exact H|]. split; [exact A|].
    destruct (handle_state _ _ _ _ _ _ _ H) as (U' & _ & D & _).
    destruct (C31_accepted_state C _ _ _ _ _ _ H) as (ap' & s' & (df & aps & strs & D1 & D2 & D3) & _ & CA).
    injection D1 as <-. injection D3 as <- _. split; [congruence|]. split; [|exact CA].
    destruct D as [->|(ap2 & s2 & _ & _ & _ & (_ & _ & [X|[X|(df2 & tb & Y1 & Y2 & _)]]))]; [exact T|congruence|rewrite X, T; reflexivity|].
    injection Y1 as <-. discriminate Y2.
  Qed.

  (** A signed STR with any contents. *)
  Variables (sk : bytes).
  Definition str_with (T : bytes) (e pe : N) (P : bytes) (pol : Policies) : DirSTR :=
    mkDir (Some (mkBody T e pe P (sign_sign sk (STR_Serialize Policies_Serialize (mkBody T e pe P []) pol)))) (Some pol).
  Lemma str_with_signed T e pe P pol : signed_by (sign_pub sk) (str_with T e pe P pol).
  Proof.
    unfold signed_by, str_with. cbn [d_body d_pol DirSTR_Serialize]. eexists _, _. split; [reflexivity|]. split; [reflexivity|].
    cbn [s_sig]. apply (ok_sign C OK).
  Qed.
  Lemma str_with_extends T e e' P pol s b : d_body s = Some b -> s_epoch b = e -> e' = add64 e 1 -> P = Digest [s_sig b] ->
    extends (str_with T e' e P pol) s.
  Proof.
    intros B E E' HP. unfold extends, str_with, DirSTR_VerifyHashChain. rewrite B. cbn [d_body]. unfold VerifyHashChain.
    cbn [s_pepoch s_epoch s_phash]. rewrite E, E', HP, !N.eqb_refl, beq_refl. reflexivity.
  Qed.

  (** A tree with one leaf, and its authentication path. *)
  Variables (vsk uname : bytes).
  Definition one_leaf (k : bytes) : ProofNode :=
    let salt := Digest [] in
    mkPN 0 (fst (vrf_prove vsk uname)) (Some k) false (Some (mkCommit salt (Digest [salt; uname; k]))).
  Definition one_path (k : bytes) : AuthPath :=
    mkAP (Digest []) [] (fst (vrf_prove vsk uname)) (snd (vrf_prove vsk uname)) (Some (one_leaf k)).
  Definition one_root (k : bytes) : bytes :=
    shake (leaf_pre (Digest []) (fst (vrf_prove vsk uname)) 0 (Digest [Digest []; uname; k])).
  Lemma one_path_type k : ProofType (one_path k) = Ok ProofOfInclusion.
  Proof. unfold ProofType, one_path. cbn [ap_leaf ap_lookup one_leaf pn_index]. rewrite beq_refl. reflexivity. Qed.
  Lemma one_path_verifies k : Verify (one_path k) uname (Some k) (one_root k) = Ok None.
  Proof.
    unfold Verify. rewrite one_path_type. unfold one_path at 1. cbn [bind ap_leaf]. unfold one_leaf at 1 2 3. cbv zeta. cbn [pn_value obytes pn_com].
    rewrite beq_refl. cbn [negb]. unfold Commit_Verify. cbn [c_value c_salt]. rewrite beq_refl.
    unfold authPathHash, pn_hash, pn_pre, one_leaf. cbv zeta. cbn [one_path pn_empty pn_com pn_index pn_level c_value ap_nonce ap_pruned bind aph_loop].
    unfold one_root. rewrite beq_refl. reflexivity.
  Qed.
  Lemma one_path_says k : says (one_path k) (Some k).
  Proof.
    split; [constructor|]. exists (one_leaf k). split; [reflexivity|]. split; [apply one_path_type|]. split; [reflexivity|]. split; [reflexivity|].
    split; [apply (ok_shake_len C OK)|]. eexists. split; [reflexivity|]. apply (ok_shake_len C OK).
  Qed.
End Build.

(** The attack.  At epoch 1 the server signs two STRs, [a1] with key [k1] and
    [b1] with [k2], and shows [a1] to the first user and to the log.  At epoch 2
    it signs, for the second user, an STR [b2] on top of [b1] whose protocol
    version field starts with the hash of [a1]'s signature.  The same bytes, cut
    elsewhere, are an STR [l2] on top of [a1] (with a 64-byte tree hash), and
    that is what the log is given.  [b3] then extends both. *)
Section Attack.
  Context {C : Crypto}.
  Variables (sk vsk uname k1 k2 : bytes).
  Definition at_pol : Policies := NewPolicies 60 (vrf_pub vsk).
  Definition at_s0 : DirSTR := str_with sk (one_root vsk uname k1) 0 0 [] at_pol.
  Definition at_a1 : DirSTR := str_with sk (one_root vsk uname k1) 1 0 (Digest [sig_of at_s0]) at_pol.
  Definition at_b1 : DirSTR := str_with sk (one_root vsk uname k2) 1 0 (Digest [sig_of at_s0]) at_pol.
  Definition at_b2 : DirSTR := str_with sk (one_root vsk uname k2) 2 1 (Digest [sig_of at_b1])
    (mkPol (Digest [sig_of at_a1] ++ Version) HashID (vrf_pub vsk) 60).
  Definition at_l2 : DirSTR :=
    mkDir (Some (mkBody (one_root vsk uname k2 ++ Digest [sig_of at_b1]) 2 1 (Digest [sig_of at_a1]) (sig_of at_b2))) (Some at_pol).
  Definition at_b3 : DirSTR := str_with sk (one_root vsk uname k2) 3 2 (Digest [sig_of at_b2]) at_pol.
  Definition at_answer (k : bytes) (s : DirSTR) : interaction :=
    (KeyLookupType, mkResp ReqSuccess (Some (DProof (Some (mkDP [Some (one_path vsk uname k)] [Some s] None)))), uname, None).
  Definition at_userA : list interaction := [at_answer k1 at_a1].
  Definition at_userB : list interaction := [at_answer k2 at_b1; at_answer k2 at_b2; at_answer k2 at_b3].
  Definition at_chain : list DirSTR := [at_s0; at_a1; at_l2; at_b3].
  Definition at_ops : list log_op :=
    [LInit [] (sign_pub sk) [Some at_s0]; LAudit (Digest [sig_of at_s0]) (NewSTRHistoryRange [Some at_a1])].
  Definition at_ops' : list log_op := [LAudit (Digest [sig_of at_s0]) (NewSTRHistoryRange [Some at_l2; Some at_b3])].

  Hypothesis OK : CryptoOk C.
  Hypothesis VW : vrf_verify (vrf_pub vsk) uname (fst (vrf_prove vsk uname)) (snd (vrf_prove vsk uname)) = true.
  Lemma at_same_bytes : DirSTR_Serialize at_l2 = DirSTR_Serialize at_b2.
  Proof.
    unfold at_l2, at_b2, str_with, DirSTR_Serialize. cbn [d_body d_pol]. f_equal.
    unfold STR_Serialize, SerializeInternal, Policies_Serialize, at_pol, NewPolicies.
    cbn [s_hash s_epoch s_pepoch s_phash pol_version pol_hashid pol_vrf pol_deadline]. rewrite <- !app_assoc. reflexivity.
  Qed.
  Lemma at_l2_signed : signed_by (sign_pub sk) at_l2.
  Proof.
    destruct (str_with_signed OK sk (one_root vsk uname k2) 2 1 (Digest [sig_of at_b1])
      (mkPol (Digest [sig_of at_a1] ++ Version) HashID (vrf_pub vsk) 60)) as (b & bs & B & S1 & V). fold at_b2 in B, S1.
    eexists _, bs. split; [reflexivity|]. split; [rewrite at_same_bytes; exact S1|]. cbn [s_sig].
    unfold sig_of. rewrite B. exact V.
  Qed.
  Lemma at_l2_extends : extends at_l2 at_a1.
  Proof. unfold extends, at_l2, DirSTR_VerifyHashChain, at_a1, str_with. cbn [d_body]. unfold VerifyHashChain. cbn [s_pepoch s_epoch s_phash s_sig sig_of d_body]. rewrite beq_refl. reflexivity. Qed.
  Lemma at_follows : follows (sign_pub sk) at_s0 [at_a1; at_l2; at_b3].
  Proof.
    cbn [follows]. split; [apply (str_with_signed OK)|]. split; [eapply str_with_extends; reflexivity|].
    split; [exact at_l2_signed|]. split; [exact at_l2_extends|].
    split; [apply (str_with_signed OK)|]. split; [eapply str_with_extends; reflexivity|]. exact I.
  Qed.

  Lemma at_log : exists log log', log_run [] at_ops = Ok log /\ log_run log at_ops' = Ok log' /\
    serves log (Digest [sig_of at_s0]) [at_s0; at_a1] /\ serves log' (Digest [sig_of at_s0]) at_chain.
  Proof.
    assert (E0 : epoch_of at_s0 = Some 0%N) by reflexivity.
    destruct at_follows as (F1 & F2 & F3). set (id := Digest [sig_of at_s0]) in *.
    destruct (log_fresh [] (sign_pub sk) at_s0 E0) as (h & R & HI & K). fold id in R, HI.
    assert (M : map_get beq id (map_set beq id h []) = Some h) by apply (map_get_set_same beq beq_eq).
    destruct (log_grow _ id h at_s0 [] [at_a1] M HI ltac:(discriminate)) as (h1 & R1 & HI1 & K1).
    { rewrite K. split; [exact F1|]. split; [exact F2|exact I]. }
    set (log0 := map_set beq id h []) in *. set (log1 := map_set beq id h1 log0) in *.
    assert (M1 : map_get beq id log1 = Some h1) by apply (map_get_set_same beq beq_eq).
    destruct (log_grow log1 id h1 at_s0 [at_a1] [at_l2; at_b3] M1 HI1 ltac:(discriminate)) as (h2 & R2 & HI2 & K2).
    { rewrite K1, K. exact F3. }
    exists log1, (map_set beq id h2 log1). split; [|split; [exact R2|split]].
    - unfold at_ops. fold id. change ([LInit [] (sign_pub sk) [Some at_s0]; LAudit id (NewSTRHistoryRange [Some at_a1])])
        with ([LInit [] (sign_pub sk) [Some at_s0]] ++ [LAudit id (NewSTRHistoryRange (map Some [at_a1]))]).
      rewrite log_run_app, R. cbn [bind]. exact R1.
    - apply (observed_spec log1 id at_s0 [at_a1] h1 M1 HI1). reflexivity.
    - apply (observed_spec _ id at_s0 [at_a1; at_l2; at_b3] h2); [apply (map_get_set_same beq beq_eq)|exact HI2|reflexivity].
  Qed.

  Lemma at_step cc s k b : cc_useTBs cc = true -> cc_tbs cc = [] -> next_str (cc_aud cc) s ->
    d_body s = Some b -> s_hash b = one_root vsk uname k -> (exists p, d_pol s = Some p /\ pol_vrf p = vrf_pub vsk) ->
    exists cc', HandleResponse cc KeyLookupType (mkResp ReqSuccess (Some (DProof (Some (mkDP [Some (one_path vsk uname k)] [Some s] None))))) uname None = Ok (cc', None) /\
      answer (mkResp ReqSuccess (Some (DProof (Some (mkDP [Some (one_path vsk uname k)] [Some s] None))))) (one_path vsk uname k) s /\
      cc_useTBs cc' = true /\ cc_tbs cc' = [] /\ cc_aud cc' = mkAud (au_key (cc_aud cc)) s.
  Proof.
    intros U T N B R (p & P & PV). eapply (lookup_accepted cc uname _ s k b p); eauto; [reflexivity|reflexivity|apply one_path_type| |].
    - rewrite PV. unfold one_path. cbn [ap_lookup ap_vrf]. exact VW.
    - rewrite R. apply one_path_verifies.
  Qed.
End Attack.

Theorem C83_unsized_log_refuted : forall (C : Crypto), CryptoOk C -> forall sk vsk uname k1 k2 : bytes,
  vrf_verify (vrf_pub vsk) uname (fst (vrf_prove vsk uname)) (snd (vrf_prove vsk uname)) = true ->
  exists s0 ops ops' log log' rec ccA lA ccA' ccB lB ccB' apA apB sA sB,
  let pk := sign_pub sk in
  epoch_of s0 = Some 0%N /\
  log_run [] ops = Ok log /\ log_run log ops' = Ok log' /\ Forall good_init (ops ++ ops') /\
  (N.of_nat (received (ops ++ ops')) < 2 ^ 64)%N /\
  (forall addr pk' s snaps, In (LInit addr pk' (Some s :: snaps)) (ops ++ ops') -> Digest [sig_of s] = Digest [sig_of s0] -> pk' = pk) /\
  serves log' (Digest [sig_of s0]) rec /\ (N.of_nat (length rec) < 2 ^ 64)%N /\
  checked pk s0 log ccA lA ccA' /\ checked pk s0 log' ccB lB ccB' /\
  accepted ccA lA uname apA sA /\ accepted ccB lB uname apB sB /\ epoch_of sA = epoch_of sB /\
  says apA (Some k1) /\ says apB (Some k2).
Proof.
  intros C OK sk vsk uname k1 k2 VW.
  destruct (at_log sk vsk uname k1 k2 OK) as (log & log' & R & R' & S1 & S2).
  set (pk := sign_pub sk). set (s0 := at_s0 sk vsk uname k1).
  set (cc0 := mkCC (mkAud pk s0) [] true []).
  assert (NX : forall s p, signed_by pk s -> extends s p -> d_body s <> None).
  { intros s p _ X. apply extends_epoch in X as (b & _ & B & _). congruence. }
  pose (a1 := at_a1 sk vsk uname k1). pose (b1 := at_b1 sk vsk uname k1 k2). pose (b2 := at_b2 sk vsk uname k1 k2).
  assert (A1 : signed_by pk a1 /\ extends a1 s0) by (split; [apply (str_with_signed OK)|eapply str_with_extends; reflexivity]).
  assert (B1 : signed_by pk b1 /\ extends b1 s0) by (split; [apply (str_with_signed OK)|eapply str_with_extends; reflexivity]).
  assert (B2 : signed_by pk b2 /\ extends b2 b1) by (split; [apply (str_with_signed OK)|eapply str_with_extends; reflexivity]).
  assert (B3 : signed_by pk (at_b3 sk vsk uname k1 k2) /\ extends (at_b3 sk vsk uname k1 k2) b2) by (split; [apply (str_with_signed OK)|eapply str_with_extends; reflexivity]).
  assert (ST : forall cc s k b v, cc_useTBs cc = true -> cc_tbs cc = [] -> cc_aud cc = mkAud pk v -> signed_by pk s /\ extends s v ->
    d_body s = Some b -> s_hash b = one_root vsk uname k -> (exists p, d_pol s = Some p /\ pol_vrf p = vrf_pub vsk) ->
    exists cc', HandleResponse cc KeyLookupType (snd (fst (fst (at_answer vsk uname k s)))) uname None = Ok (cc', None) /\
      answer (snd (fst (fst (at_answer vsk uname k s)))) (one_path vsk uname k) s /\
      cc_useTBs cc' = true /\ cc_tbs cc' = [] /\ cc_aud cc' = mkAud pk s).
  { intros cc s k b v U T A (G & X) B H P. destruct (at_step vsk uname VW cc s k b U T) as (cc' & Q1 & Q2 & Q3 & Q4 & Q5); auto.
    - rewrite A. split; [exact (NX _ _ G X)|]. right. cbn [au_key au_str]. auto.
    - exists cc'. rewrite A in Q5. cbn [au_key] in Q5. cbn [at_answer fst snd]. auto. }
  destruct (ST cc0 a1 k1 _ s0 eq_refl eq_refl eq_refl A1 eq_refl eq_refl (ex_intro _ _ (conj eq_refl eq_refl))) as (ca & HA & NA & UA & TA & CA).
  destruct (ST cc0 b1 k2 _ s0 eq_refl eq_refl eq_refl B1 eq_refl eq_refl (ex_intro _ _ (conj eq_refl eq_refl))) as (c1 & H1 & N1 & U1 & T1 & C1).
  destruct (ST c1 b2 k2 _ b1 U1 T1 C1 B2 eq_refl eq_refl (ex_intro _ _ (conj eq_refl eq_refl))) as (c2 & H2 & N2 & U2 & T2 & C2).
  destruct (ST c2 (at_b3 sk vsk uname k1 k2) k2 _ b2 U2 T2 C2 B3 eq_refl eq_refl (ex_intro _ _ (conj eq_refl eq_refl))) as (c3 & H3 & N3 & U3 & T3 & C3).
  exists s0, (at_ops sk vsk uname k1), (at_ops' sk vsk uname k1 k2), log, log', (at_chain sk vsk uname k1 k2), cc0,
    (at_userA sk vsk uname k1), ca, cc0, (at_userB sk vsk uname k1 k2), c3, (one_path vsk uname k1), (one_path vsk uname k2), a1, b1.
  cbv zeta. fold pk. split; [reflexivity|]. split; [exact R|]. split; [exact R'|]. split.
  { constructor; [exists s0, []; split; [reflexivity|exact I]|]. constructor; [exact I|]. constructor; [exact I|constructor]. }
  split; [reflexivity|]. split.
  { intros addr pk' s snaps [Q|[Q|[Q|[]]]] _; [|discriminate Q|discriminate Q]. assert (IJ : forall a p l a2 p2 l2, LInit a p l = LInit a2 p2 l2 -> p = p2) by (intros; congruence). apply IJ in Q. symmetry. exact Q. }
  split; [exact S2|]. split; [reflexivity|]. split; [|split; [|split; [|split; [|split; [reflexivity|split; apply (one_path_says OK)]]]]].
  - constructor; [reflexivity| |reflexivity|].
    + exists ca, None. split; [exact HA|]. split; [left; reflexivity|]. reflexivity.
    + exists 0%N, 1%N, (NewSTRHistoryRange (map Some [s0; a1])). split; [exact (S1 0 1)|].
      apply C40_truthful_accepted; [rewrite CA; cbn [au_key follows]; tauto|discriminate|left; rewrite CA; reflexivity].
  - constructor; [reflexivity| |reflexivity|].
    + exists c1, None. split; [exact H1|]. split; [left; reflexivity|]. exists c2, None. split; [exact H2|]. split; [left; reflexivity|].
      exists c3, None. split; [exact H3|]. split; [left; reflexivity|]. reflexivity.
    + exists 0%N, 3%N, (NewSTRHistoryRange (map Some (at_chain sk vsk uname k1 k2))). split; [exact (S2 0 3)|].
      apply C40_truthful_accepted; [rewrite C3; cbn [au_key]; exact (at_follows sk vsk uname k1 k2 OK)|discriminate|left; rewrite C3; reflexivity].
  - exists ca, None. split; [exact HA|]. left. split; [reflexivity|]. split; [reflexivity|exact NA].
  - exists c1, None. split; [exact H1|]. left. split; [reflexivity|]. split; [reflexivity|exact N1].
Qed.
Print Assumptions C83_unsized_log_refuted.

(** *** Non-vacuity *)

(** The code's VRF verification rejects public keys that are not 32 bytes
    long, whatever the hash functions and signatures are. *)
Example C83_code_keys_sized : forall xof hash spub ssign sver, @vrf_keys_sized (CodeCrypto xof hash spub ssign sver).
Proof.
  intros xof hash spub ssign sver pk m i p H. cbn [vrf_verify CodeCrypto] in H. unfold VRF.Verify in H.
  destruct (Nat.eqb_spec (length pk) 32) as [E|E]; [exact E|]. rewrite !orb_true_r in H. discriminate H.
Qed.

(** The toy instance with that check added. *)
Definition SizedCrypto : Crypto := {|
  shake := toy_shake; sign_pub := toy_shake; sign_sign sk m := toy_sig (toy_shake sk) m; sign_verify pk m s := beq s (toy_sig pk m);
  vrf_pub := toy_shake; vrf_prove sk m := (toy_shake (toy_shake sk ++ m), m);
  vrf_verify pk m i p := Nat.eqb (length pk) 32 && (beq i (toy_shake (pk ++ m)) && beq p m) |}.
Lemma SizedCrypto_ok : CryptoOk SizedCrypto.
Proof.
  destruct ToyCrypto_ok as [H1 H2 H3 H4 H5 H7]. constructor; [exact H1|exact H2|exact H3|exact H4|exact H5|].
  - intros pk m i p H. cbn [vrf_verify SizedCrypto] in H. apply andb_prop in H as (_ & H). exact (H7 pk m i p H).
Qed.
Lemma SizedCrypto_keys : @vrf_keys_sized SizedCrypto.
Proof. intros pk m i p H. cbn [vrf_verify SizedCrypto] in H. apply andb_prop in H as (H & _). apply Nat.eqb_eq, H. Qed.

(** A server that shows both users the key [k]: the first checks with the log at
    epoch 1, the second at epoch 2, after the log has grown. *)
Section Honest.
  Context {C : Crypto} (OK : CryptoOk C) (sk vsk uname k : bytes).
  Hypothesis VW : vrf_verify (vrf_pub vsk) uname (fst (vrf_prove vsk uname)) (snd (vrf_prove vsk uname)) = true.
  Definition ho_s0 : DirSTR := str_with sk (one_root vsk uname k) 0 0 [] (at_pol vsk).
  Definition ho_s1 : DirSTR := str_with sk (one_root vsk uname k) 1 0 (Digest [sig_of ho_s0]) (at_pol vsk).
  Definition ho_s2 : DirSTR := str_with sk (one_root vsk uname k) 2 1 (Digest [sig_of ho_s1]) (at_pol vsk).
  Definition ho_id : bytes := Digest [sig_of ho_s0].
  Definition ho_ops : list log_op := [LInit [] (sign_pub sk) [Some ho_s0]; LAudit ho_id (NewSTRHistoryRange [Some ho_s1])].
  Definition ho_ops' : list log_op := [LAudit ho_id (NewSTRHistoryRange [Some ho_s2])].
  Definition ho_userA : list interaction := [at_answer vsk uname k ho_s1].
  Definition ho_userB : list interaction := [at_answer vsk uname k ho_s1; at_answer vsk uname k ho_s2].

  Example C83_example : exists log log' ccA ccA' ccB ccB',
    epoch_of ho_s0 = Some 0%N /\
    log_run [] ho_ops = Ok log /\ log_run log ho_ops' = Ok log' /\ Forall good_init (ho_ops ++ ho_ops') /\
    (N.of_nat (received (ho_ops ++ ho_ops')) < 2 ^ 64)%N /\
    (forall addr pk' s snaps, In (LInit addr pk' (Some s :: snaps)) (ho_ops ++ ho_ops') -> Digest [sig_of s] = Digest [sig_of ho_s0] -> pk' = sign_pub sk) /\
    serves log' (Digest [sig_of ho_s0]) [ho_s0; ho_s1; ho_s2] /\ (N.of_nat (length [ho_s0; ho_s1; ho_s2]) < 2 ^ 64)%N /\
    Forall hash_sized (tl [ho_s0; ho_s1; ho_s2]) /\
    checked (sign_pub sk) ho_s0 log ccA ho_userA ccA' /\ checked (sign_pub sk) ho_s0 log' ccB ho_userB ccB' /\
    accepted ccA ho_userA uname (one_path vsk uname k) ho_s1 /\ accepted ccB ho_userB uname (one_path vsk uname k) ho_s1 /\
    says (one_path vsk uname k) (Some k).
  Proof.
    set (pk := sign_pub sk). set (cc0 := mkCC (mkAud pk ho_s0) [] true []).
    assert (NX : forall s p, signed_by pk s -> extends s p -> d_body s <> None).
    { intros s p _ X. apply extends_epoch in X as (b & _ & B & _). congruence. }
    assert (A1 : signed_by pk ho_s1 /\ extends ho_s1 ho_s0) by (split; [apply (str_with_signed OK)|eapply str_with_extends; reflexivity]).
    assert (A2 : signed_by pk ho_s2 /\ extends ho_s2 ho_s1) by (split; [apply (str_with_signed OK)|eapply str_with_extends; reflexivity]).
    assert (E0 : epoch_of ho_s0 = Some 0%N) by reflexivity.
    destruct (log_fresh [] pk ho_s0 E0) as (h & R & HI & K). fold ho_id in R, HI.
    assert (M : map_get beq ho_id (map_set beq ho_id h []) = Some h) by apply (map_get_set_same beq beq_eq).
    destruct (log_grow _ ho_id h ho_s0 [] [ho_s1] M HI ltac:(discriminate)) as (h1 & R1 & HI1 & K1).
    { rewrite K. cbn [last follows]. tauto. }
    set (log0 := map_set beq ho_id h []) in *. set (log1 := map_set beq ho_id h1 log0) in *.
    assert (M1 : map_get beq ho_id log1 = Some h1) by apply (map_get_set_same beq beq_eq).
    destruct (log_grow log1 ho_id h1 ho_s0 [ho_s1] [ho_s2] M1 HI1 ltac:(discriminate)) as (h2 & R2 & HI2 & K2).
    { rewrite K1, K. cbn [last follows]. tauto. }
    assert (S1 : serves log1 ho_id [ho_s0; ho_s1]) by (apply (observed_spec log1 ho_id ho_s0 [ho_s1] h1 M1 HI1); reflexivity).
    assert (S2 : serves (map_set beq ho_id h2 log1) ho_id [ho_s0; ho_s1; ho_s2]).
    { apply (observed_spec _ ho_id ho_s0 [ho_s1; ho_s2] h2); [apply (map_get_set_same beq beq_eq)|exact HI2|reflexivity]. }
    assert (ST : forall cc s b v, cc_useTBs cc = true -> cc_tbs cc = [] -> cc_aud cc = mkAud pk v -> signed_by pk s /\ extends s v ->
      d_body s = Some b -> s_hash b = one_root vsk uname k -> (exists p, d_pol s = Some p /\ pol_vrf p = vrf_pub vsk) ->
      exists cc', HandleResponse cc KeyLookupType (snd (fst (fst (at_answer vsk uname k s)))) uname None = Ok (cc', None) /\
        answer (snd (fst (fst (at_answer vsk uname k s)))) (one_path vsk uname k) s /\
        cc_useTBs cc' = true /\ cc_tbs cc' = [] /\ cc_aud cc' = mkAud pk s).
    { intros cc s b v U T A (G & X) B H P. destruct (at_step vsk uname VW cc s k b U T) as (cc' & Q1 & Q2 & Q3 & Q4 & Q5); auto.
      - rewrite A. split; [exact (NX _ _ G X)|]. right. cbn [au_key au_str]. auto.
      - exists cc'. rewrite A in Q5. cbn [au_key] in Q5. cbn [at_answer fst snd]. auto. }
    destruct (ST cc0 ho_s1 _ ho_s0 eq_refl eq_refl eq_refl A1 eq_refl eq_refl (ex_intro _ _ (conj eq_refl eq_refl))) as (c1 & H1 & N1 & U1 & T1 & C1).
    destruct (ST c1 ho_s2 _ ho_s1 U1 T1 C1 A2 eq_refl eq_refl (ex_intro _ _ (conj eq_refl eq_refl))) as (c2 & H2 & N2 & U2 & T2 & C2).
    exists log1, (map_set beq ho_id h2 log1), cc0, c1, cc0, c2. split; [reflexivity|]. split.
    { unfold ho_ops. change ([LInit [] (sign_pub sk) [Some ho_s0]; LAudit ho_id (NewSTRHistoryRange [Some ho_s1])])
        with ([LInit [] pk [Some ho_s0]] ++ [LAudit ho_id (NewSTRHistoryRange (map Some [ho_s1]))]).
      rewrite log_run_app, R. cbn [bind]. exact R1. }
    split; [exact R2|]. split.
    { constructor; [exists ho_s0, []; split; [reflexivity|exact I]|]. constructor; [exact I|]. constructor; [exact I|constructor]. }
    split; [reflexivity|]. split.
    { intros addr pk' s snaps [Q|[Q|[Q|[]]]] _; [|discriminate Q|discriminate Q].
      assert (IJ : forall a p l a2 p2 l2, LInit a p l = LInit a2 p2 l2 -> p = p2) by (intros; congruence). apply IJ in Q. symmetry. exact Q. }
    split; [exact S2|]. split; [reflexivity|]. split.
    { cbn [tl]. assert (L : length (one_root vsk uname k) = 32) by apply (ok_shake_len C OK).
      constructor; [eexists; split; [reflexivity|exact L]|]. constructor; [eexists; split; [reflexivity|exact L]|constructor]. }
    split; [|split; [|split; [|split; [|apply (one_path_says OK)]]]].
    - constructor; [reflexivity| |reflexivity|].
      + exists c1, None. split; [exact H1|]. split; [left; reflexivity|]. reflexivity.
      + exists 0%N, 1%N, (NewSTRHistoryRange (map Some [ho_s0; ho_s1])). split; [exact (S1 0 1)|].
        apply C40_truthful_accepted; [rewrite C1; cbn [au_key follows]; tauto|discriminate|left; rewrite C1; reflexivity].
    - constructor; [reflexivity| |reflexivity|].
      + exists c1, None. split; [exact H1|]. split; [left; reflexivity|]. exists c2, None. split; [exact H2|]. split; [left; reflexivity|]. reflexivity.
      + exists 0%N, 2%N, (NewSTRHistoryRange (map Some [ho_s0; ho_s1; ho_s2])). split; [exact (S2 0 2)|].
        apply C40_truthful_accepted; [rewrite C2; cbn [au_key follows]; tauto|discriminate|left; rewrite C2; reflexivity].
    - exists c1, None. split; [exact H1|]. left. split; [reflexivity|]. split; [reflexivity|exact N1].
    - exists c1, None. split; [exact H1|]. left. split; [reflexivity|]. split; [reflexivity|exact N1].
  Qed.
End Honest.

(** In the toy instance the attack leaves no evidence: neither collisions nor a
    signature under two byte strings nor two VRF outputs. *)
Definition pairs_ok {A} (f : A -> A -> bool) (l : list A) : bool := forallb (fun x => forallb (f x) l) l.
Definition no_coll {C : Crypto} (xs ys : list bytes) : bool :=
  forallb (fun x => forallb (fun y => beq x y || negb (beq (shake x) (shake y))) ys) xs.
Lemma no_coll_sound {C : Crypto} xs ys : no_coll xs ys = true -> ~ collision_between xs ys.
Proof.
  unfold no_coll. intros H (x & y & Hx & Hy & NE & E). rewrite forallb_forall in H. apply H in Hx. rewrite forallb_forall in Hx. apply Hx in Hy.
  apply orb_prop in Hy as [Q|Q]; [apply beq_eq in Q; contradiction|]. rewrite E, beq_refl in Q. discriminate Q.
Qed.
Definition bytes_of (s : DirSTR) : bytes := match DirSTR_Serialize s with Ok b => b | Panic => [] end.
Definition at_held {C : Crypto} (sk vsk uname k1 k2 : bytes) : list DirSTR :=
  at_s0 sk vsk uname k1 :: seen (at_userA sk vsk uname k1) ++ seen (at_userB sk vsk uname k1 k2) ++ at_chain sk vsk uname k1 k2.
Definition at_clean {C : Crypto} (sk vsk uname k1 k2 : bytes) : bool :=
  let held := at_held sk vsk uname k1 k2 in
  no_coll (map sig_of held) (map sig_of held) &&
  pairs_ok (fun x y => negb (beq (sig_of x) (sig_of y)) || beq (bytes_of x) (bytes_of y)) held &&
  no_coll (verify_inputs (one_path vsk uname k1) uname k1) (verify_inputs (one_path vsk uname k2) uname k2).
Lemma at_clean_sound {C : Crypto} sk vsk uname k1 k2 : at_clean sk vsk uname k1 k2 = true ->
  ~ evidence (sign_pub sk) (at_held sk vsk uname k1 k2) uname (one_path vsk uname k1) (one_path vsk uname k2).
Proof.
  unfold at_clean. cbv zeta. generalize (at_held sk vsk uname k1 k2). intros held H. apply andb_prop in H as (H & H3). apply andb_prop in H as (H1 & H2).
  intros [E|[E|[E|E]]].
  - exact (no_coll_sound _ _ H1 E).
  - destruct E as (x & y & bx & by_ & Hx & Hy & S1 & _ & _ & X & Y & NE). unfold pairs_ok in H2.
    rewrite forallb_forall in H2. apply H2 in Hx. rewrite forallb_forall in Hx. apply Hx in Hy. rewrite S1, beq_refl in Hy. cbn [negb orb] in Hy.
    unfold bytes_of in Hy. rewrite X, Y in Hy. apply beq_eq in Hy. contradiction.
  - destruct E as (vpk & _ & _ & NE). apply NE. reflexivity.
  - exact (no_coll_sound _ _ H3 E).
Qed.
Lemma at_clean_toy : @at_clean SizedCrypto [x01] [x02] [x61] [x31] [x32] = true.
Proof. vm_compute. reflexivity. Qed.
Example C83_attack_unseen : ~ @evidence SizedCrypto (@sign_pub SizedCrypto [x01]) (@at_held SizedCrypto [x01] [x02] [x61] [x31] [x32]) [x61]
  (@one_path SizedCrypto [x02] [x61] [x31]) (@one_path SizedCrypto [x02] [x61] [x32]).
Proof. exact (at_clean_sound _ _ _ _ _ at_clean_toy). Qed.
