(** Lemmas behind Prop_Client.v. *)
From Coq Require Import List NArith ZArith Lia Bool Arith.
From Verif Require Import Base Utils Crypto Tree TreeFacts STR PAD PADSpec Protocol Directory DirSpec DirMain
  Auditor AudSpec AudFacts Client ClientSpec.
Import ListNotations.

Section Facts.
  Context {C : Crypto}.

  Lemma update_str_ok cc t df cc1 : updateSTR cc t df = Ok (cc1, None) <->
    (t = RegistrationType \/ t = KeyLookupType) /\
    exists s strs, dp_str df = Some s :: strs /\ next_str (cc_aud cc) s /\
      cc1 = set_aud cc (mkAud (au_key (cc_aud cc)) s).
  Proof.
    unfold updateSTR, str0, next_str.
    destruct (Z.eqb_spec t RegistrationType) as [ET|ET]; [|destruct (Z.eqb_spec t KeyLookupType) as [ET'|ET']].
    3:{ cbn [orb]. split; [discriminate|]. intros ([|] & _); congruence. }
    1,2: cbn [orb]; destruct (dp_str df) as [|os strs]; [split; [discriminate|intros (_ & ? & ? & X & _); discriminate X]|];
      unfold index; cbn [nth_error bind];
      (destruct (AuditDirectory (cc_aud cc) [os]) as [[e|]|] eqn:A; cbn [bind];
       [split; [discriminate|] | | split; [discriminate|] ];
       [intros (_ & s & strs' & X & NB & E); injection X as -> ->;
        rewrite (proj2 (audit_dir_ok (cc_aud cc) [Some s])) in A; [discriminate A|exists s, []; cbn [follows]; tauto]
       |apply audit_dir_ok in A; destruct A as (s & l & X & NB & D & F);
        destruct l as [|? l]; [|discriminate X]; injection X as ->; cbn [deref bind]; split;
        [intro H; injection H as <-; split; [tauto|]; exists s, strs; auto
        |intros (_ & s' & strs' & X & _ & ->); injection X as <- <-; reflexivity]
       |intros (_ & s & strs' & X & NB & E); injection X as -> ->;
        rewrite (proj2 (audit_dir_ok (cc_aud cc) [Some s])) in A; [discriminate A|exists s, []; cbn [follows]; tauto]]).
  Qed.
  Lemma update_str_err cc t df cc1 e : updateSTR cc t df = Ok (cc1, Some e) -> cc1 = cc.
  Proof.
    unfold updateSTR. destruct (_ || _); [|discriminate]. destruct (str0 df) as [s|]; cbn [bind]; [|discriminate].
    destruct (AuditDirectory _ _) as [[?|]|]; cbn [bind]; try discriminate.
    - intro H. injection H as <- _. reflexivity.
    - destruct (deref s); cbn [bind]; discriminate.
  Qed.

  (** [verifyAuthPath] on a well-formed STR and path *)
  Lemma verify_path_ok uname key ap s : verifyAuthPath uname key ap s = Ok None <->
    exists pol b leaf, d_pol s = Some pol /\ d_body s = Some b /\ ap_leaf ap = Some leaf /\
      vrf_verify (pol_vrf pol) uname (ap_lookup ap) (ap_vrf ap) = true /\
      Verify ap uname (match key with Some k => Some k | None => pn_value leaf end) (s_hash b) = Ok None.
  Proof.
    unfold verifyAuthPath. destruct (d_pol s) as [pol|]; cbn [deref bind].
    2:{ split; [discriminate|]. intros (? & ? & ? & X & _). discriminate X. }
    destruct (vrf_verify _ _ _ _) eqn:V; cbn [negb].
    2:{ split; [discriminate|]. intros (p & ? & ? & X & _ & _ & V' & _). injection X as <-. congruence. }
    destruct (ap_leaf ap) as [leaf|]; cbn [deref bind].
    2:{ split; [discriminate|]. intros (? & ? & ? & _ & _ & X & _). discriminate X. }
    destruct (d_body s) as [b|]; cbn [deref bind].
    2:{ split; [discriminate|]. intros (? & ? & ? & _ & X & _). discriminate X. }
    split.
    - intro H. exists pol, b, leaf. do 4 (split; auto).
      destruct (Verify _ _ _ _) as [[[]|]|]; cbn [bind] in H; congruence.
    - intros (pol' & b' & leaf' & X1 & X2 & X3 & _ & H). injection X1 as <-. injection X2 as <-. injection X3 as <-. rewrite H. reflexivity.
  Qed.

  Lemma promise_ok cc df key ap aps s strs : dp_ap df = Some ap :: aps -> dp_str df = Some s :: strs -> d_body s <> None ->
    verifyReturnedPromise cc df key = Ok None <->
    exists tb, dp_tb df = Some tb /\ good_promise (au_key (cc_aud cc)) s (ap_lookup ap) key tb.
  Proof.
    intros HA HS NB. unfold verifyReturnedPromise, ap0, str0, good_promise. rewrite HA, HS. unfold index. cbn [nth_error bind].
    destruct (dp_tb df) as [tb|]; [|split; [discriminate|intros (? & X & _); discriminate X]].
    cbn [deref bind]. unfold str_sig, sig_of. destruct (d_body s) as [b|]; [|congruence]. cbn [bind]. unfold Aud_Verify.
    destruct (sign_verify _ _ _) eqn:V; cbn [negb].
    2:{ split; [discriminate|]. intros (tb' & X & V' & _). injection X as <-. congruence. }
    destruct (beq_spec (tb_index tb) (ap_lookup ap)) as [E|E]; cbn [negb].
    2:{ split; [discriminate|]. intros (tb' & X & _ & E' & _). injection X as <-. congruence. }
    destruct key as [k|].
    - destruct (beq_spec (tb_value tb) k) as [K|K].
      + split; [|reflexivity]. intros _. exists tb. split; auto. split; auto. split; auto. intros k' H. congruence.
      + split; [discriminate|]. intros (tb' & X & _ & _ & K'). injection X as <-. elim K. apply K'. reflexivity.
    - split; [|reflexivity]. intros _. exists tb. split; auto. split; auto. split; auto. discriminate.
  Qed.

  Lemma store_ok cc uname tb : exists cc', store_tb cc uname (Some tb) = Ok cc'.
  Proof. eexists. reflexivity. Qed.

  Lemma handle_accepts_iff cc t msg uname key : cc_useTBs cc = true ->
    (exists cc', HandleResponse cc t msg uname key = Ok (cc', None)) <-> acceptable cc t msg uname key.
  Proof.
    intro TB. unfold HandleResponse, acceptable. split.
    - intros (cc' & H).
      destruct (Validate msg) as [[?|]|] eqn:V; cbn [bind] in H; [discriminate H| |discriminate H].
      destruct (_ || _ || _ || _); [|discriminate H].
      destruct (r_df msg) as [[[df|]|?]|]; try discriminate H.
      destruct (updateSTR cc t df) as [[cc1 [e|]]|] eqn:U; cbn [bind] in H; [discriminate H| |discriminate H].
      apply update_str_ok in U. destruct U as (T & s & strs & HS & NS & ->).
      destruct (checkConsistency _ _ _ _ _ _) as [[e|]|] eqn:K; cbn [bind] in H; [discriminate H| |discriminate H].
      destruct (updateTBs _ _ _ _ _ _) as [[cc2 [e|]]|] eqn:B; cbn [bind] in H; [discriminate H| |discriminate H]. clear H cc'.
      assert (X : exists ap aps pt, dp_ap df = Some ap :: aps /\ ProofType ap = Ok pt /\ verifyAuthPath uname key ap s = Ok None /\
         ((t = RegistrationType /\ ((r_error msg = ReqNameExisted) \/ (r_error msg = ReqSuccess /\ pt = ProofOfAbsence))) \/
          (t = KeyLookupType /\ ((r_error msg = ReqNameNotFound /\ pt = ProofOfAbsence) \/ r_error msg = ReqSuccess)))).
      { unfold checkConsistency, verifyRegistration, verifyKeyLookup, ap0, str0 in K. rewrite HS in K.
        assert (TT : forall z : proof_type, z = ProofOfAbsence \/ z = ProofOfInclusion) by (intros []; auto).
        destruct T as [->| ->]; [rewrite Z.eqb_refl in K|change (Z.eqb KeyLookupType RegistrationType) with false in K; cbv iota in K; rewrite Z.eqb_refl in K].
        all: destruct (dp_ap df) as [|oap aps]; [discriminate K|]; unfold index in K; cbn [nth_error bind] in K;
          destruct oap as [ap|]; cbn [proofType deref bind] in K; [|discriminate K]; unfold proofType in K; cbn [deref bind] in K;
          destruct (ProofType ap) as [pt|] eqn:PT; cbn [bind] in K; [|discriminate K];
          exists ap, aps, pt; split; auto; split; auto.
        - destruct (Z.eqb_spec (r_error msg) ReqNameExisted) as [E|E].
          + destruct pt; cbn [isAbsence negb andb orb set_aud cc_useTBs deref bind] in K; rewrite ?TB in K; cbn [orb andb deref bind] in K; auto 6.
          + cbn [andb orb] in K. destruct (Z.eqb_spec (r_error msg) ReqSuccess); destruct pt; cbn [isAbsence negb andb orb deref bind] in K; try discriminate K. auto 6.
        - destruct (Z.eqb_spec (r_error msg) ReqNameNotFound) as [E|E].
          + replace (Z.eqb (r_error msg) ReqSuccess) with false in K by (rewrite E; reflexivity).
            destruct pt; cbn [isAbsence negb andb orb deref bind] in K; try discriminate K. auto 6.
          + cbn [andb orb] in K. destruct (Z.eqb_spec (r_error msg) ReqSuccess); destruct pt; cbn [isAbsence negb andb orb set_aud cc_useTBs deref bind] in K;
              rewrite ?TB in K; cbn [orb andb deref bind] in K; try discriminate K; auto 6. }
      destruct X as (ap & aps & pt & HA & PT & VP & CASES). apply verify_path_ok in VP.
      destruct VP as (pol & b & leaf & P1 & P2 & P3 & P4 & P5).
      exists df, ap, aps, s, strs, pol, b, leaf, pt. do 10 (split; auto). clear K V.
      unfold updateTBs, ap0 in B. cbn [set_aud cc_useTBs] in B. rewrite TB, HA in B. cbn [negb] in B.
      unfold index in B. cbn [nth_error bind] in B. unfold proofType in B. cbn [deref bind] in B. rewrite PT in B. cbn [bind] in B.
      assert (PROM : forall cc', (do err <- verifyReturnedPromise (set_aud cc (mkAud (au_key (cc_aud cc)) s)) df key;
         match err with Some x => Ok (set_aud cc (mkAud (au_key (cc_aud cc)) s), Some x)
         | None => do cc'' <- store_tb (set_aud cc (mkAud (au_key (cc_aud cc)) s)) uname (dp_tb df); Ok (cc'', None) end) = Ok (cc', None) ->
         exists tb, dp_tb df = Some tb /\ good_promise (au_key (cc_aud cc)) s (ap_lookup ap) key tb).
      { intros cc' H. destruct (verifyReturnedPromise _ _ _) as [[x|]|] eqn:RP; cbn [bind] in H; [discriminate H| |discriminate H].
        apply (promise_ok _ _ _ ap aps s strs HA HS) in RP; [exact RP|congruence]. }
      destruct CASES as [(-> & E)|(-> & E)].
      + rewrite Z.eqb_refl in B. destruct pt; cbn [isAbsence] in B.
        * right. split; [left; split; auto; tauto|]. apply PROM in B. exact B.
        * left. split; auto. destruct E as [E|(_ & E)]; [auto|discriminate E].
      + change (Z.eqb KeyLookupType RegistrationType) with false in B. cbv iota in B. rewrite Z.eqb_refl in B.
        destruct E as [(E & ->)|E]; [auto|]. rewrite E in B. rewrite Z.eqb_refl in B.
        destruct pt; cbn [isAbsence negb andb] in B.
        * right. split; [auto|]. apply PROM in B. exact B.
        * right. split; auto. split; auto. intros tb M. unfold verifyFulfilledPromise in B. cbn [set_aud cc_tbs] in B. rewrite M, P3 in B.
          cbn [deref bind] in B. destruct (beq_spec (ap_lookup ap) (tb_index tb)); cbn [negb orb] in B; [|discriminate B].
          destruct (beq_spec (obytes (pn_value leaf)) (tb_value tb)); cbn [negb] in B; [auto|discriminate B].
    - intros (df & ap & aps & s & strs & pol & b & leaf & pt & D & HA & HS & NS & P1 & P2 & P3 & PT & P4 & P5 & CASES).
      set (cc1 := set_aud cc (mkAud (au_key (cc_aud cc)) s)).
      assert (VP : verifyAuthPath uname key ap s = Ok None) by (apply verify_path_ok; eauto 10).
      assert (T : t = RegistrationType \/ t = KeyLookupType) by (destruct pt; tauto).
      assert (U : updateSTR cc t df = Ok (cc1, None)) by (apply update_str_ok; split; eauto).
      assert (NE : is_error (r_error msg) = false).
      { assert (Q : r_error msg = ReqSuccess \/ r_error msg = ReqNameExisted \/ r_error msg = ReqNameNotFound) by (destruct pt; tauto).
        destruct Q as [->|[->| ->]]; reflexivity. }
      unfold Validate. rewrite NE, D, HA, HS. cbn [bind]. rewrite U. cbn [bind].
      assert (TT : Z.eqb t RegistrationType || Z.eqb t KeyLookupType || Z.eqb t KeyLookupInEpochType || Z.eqb t MonitoringType = true)
        by (destruct T as [->| ->]; reflexivity).
      rewrite TT.
      assert (K : checkConsistency cc1 t (r_error msg) df uname key = Ok None).
      { unfold checkConsistency, verifyRegistration, verifyKeyLookup, ap0, str0. rewrite HA, HS. unfold index. cbn [nth_error bind].
        unfold proofType. cbn [deref bind]. rewrite PT. cbn [bind].
        destruct pt; cbn [isAbsence negb]; rewrite ?andb_false_r, ?andb_true_r; cbn [cc1 set_aud cc_useTBs]; rewrite ?TB.
        - destruct CASES as [(-> & ->)|([(-> & [->| ->])|(-> & ->)] & _)]; exact VP.
        - destruct CASES as [(-> & ->)|(-> & -> & _)]; exact VP. }
      rewrite K. cbn [bind].
      assert (B : exists cc2, updateTBs cc1 t (r_error msg) df uname key = Ok (cc2, None)).
      { unfold updateTBs, ap0. cbn [cc1 set_aud cc_useTBs]. rewrite TB, HA. cbn [negb]. unfold index. cbn [nth_error bind].
        unfold proofType. cbn [deref bind]. rewrite PT. cbn [bind].
        assert (PROM : forall tb, dp_tb df = Some tb -> good_promise (au_key (cc_aud cc)) s (ap_lookup ap) key tb ->
           exists cc2, (do err <- verifyReturnedPromise cc1 df key;
             match err with Some x => Ok (cc1, Some x)
             | None => do cc'' <- store_tb cc1 uname (dp_tb df); Ok (cc'', None) end) = Ok (cc2, None)).
        { intros tb E G. rewrite (proj2 (promise_ok cc1 df key ap aps s strs HA HS ltac:(congruence))) by eauto. cbn [bind].
          rewrite E. eexists. reflexivity. }
        destruct pt; cbn [isAbsence negb]; rewrite ?andb_false_r, ?andb_true_r.
        - destruct CASES as [(-> & ->)|([(-> & [->| ->])|(-> & ->)] & tb & E & G)].
          + eexists. reflexivity.
          + apply (PROM tb E G). + apply (PROM tb E G). + apply (PROM tb E G).
        - destruct CASES as [(-> & ->)|(-> & -> & F)].
          + eexists. reflexivity.
          + change (Z.eqb KeyLookupType RegistrationType) with false. rewrite !Z.eqb_refl. cbv iota.
            unfold verifyFulfilledPromise. cbn [deref bind]. unfold cc1. cbn [set_aud cc_tbs]. destruct (map_get beq uname (cc_tbs cc)) as [tb|].
            * rewrite P3. cbn [deref bind]. destruct (F tb eq_refl) as (F1 & F2); rewrite F1, F2. cbn [ap_lookup]. rewrite !beq_refl. eexists. reflexivity.
            * eexists. reflexivity. }
      destruct B as (cc2 & B). rewrite B. cbn [bind]. eexists. reflexivity.
  Qed.

  (** The state after any answer. *)
  Lemma handle_state cc t msg uname key cc' err : HandleResponse cc t msg uname key = Ok (cc', err) ->
    cc_useTBs cc' = cc_useTBs cc /\ au_key (cc_aud cc') = au_key (cc_aud cc) /\
    (cc' = cc \/ exists ap s, next_str (cc_aud cc) s /\ au_str (cc_aud cc') = s /\
       (exists df strs, r_df msg = Some (DProof (Some df)) /\ dp_str df = Some s :: strs) /\
       match err with
       | Some _ => cc_tbs cc' = cc_tbs cc /\ cc_bindings cc' = cc_bindings cc
       | None => answer msg ap s /\ cc_bindings cc' = map_set beq uname None (cc_bindings cc) /\
           (cc_tbs cc' = cc_tbs cc \/ cc_tbs cc' = map_del beq uname (cc_tbs cc) \/
            exists df tb, r_df msg = Some (DProof (Some df)) /\ dp_tb df = Some tb /\ cc_tbs cc' = map_set beq uname tb (cc_tbs cc))
       end) /\
    (err = None -> exists ap s, answer msg ap s /\ au_str (cc_aud cc') = s).
  Proof.
    unfold HandleResponse. intro H.
    destruct (Validate msg) as [[?|]|] eqn:V; cbn [bind] in H; [injection H as <- <-; repeat split; auto; discriminate| |discriminate H].
    destruct (_ || _ || _ || _); [|discriminate H].
    destruct (r_df msg) as [[[df|]|?]|] eqn:D; try discriminate H; try (injection H as <- <-; repeat split; auto; discriminate).
    destruct (updateSTR cc t df) as [[cc1 [e|]]|] eqn:U; cbn [bind] in H; [| |discriminate H].
    { apply update_str_err in U. injection H as <- <-. subst. repeat split; auto. discriminate. }
    apply update_str_ok in U. destruct U as (T & s & strs & HS & NS & ->).
    destruct (checkConsistency _ _ _ _ _ _) as [[e|]|] eqn:K; cbn [bind] in H; [| |discriminate H].
    { injection H as <- <-. cbn [set_aud cc_useTBs cc_aud au_key au_str cc_tbs cc_bindings]. split; auto. split; auto. split; [|discriminate].
      right. exists (mkAP [] [] [] [] None), s. split; auto. split; auto. split; eauto. }
    assert (HA : exists ap aps, dp_ap df = Some ap :: aps).
    { unfold checkConsistency, verifyRegistration, verifyKeyLookup, ap0 in K.
      destruct T as [->| ->]; [rewrite Z.eqb_refl in K|change (Z.eqb KeyLookupType RegistrationType) with false in K; cbv iota in K; rewrite Z.eqb_refl in K].
      all: destruct (dp_ap df) as [|[ap|] aps]; [discriminate K|eauto|]; unfold index in K; cbn [nth_error bind] in K;
        destruct (str0 df); cbn [bind] in K; discriminate K. }
    destruct HA as (ap & aps & HA).
    assert (AN : answer msg ap s) by (exists df, aps, strs; auto).
    destruct (updateTBs _ _ _ _ _ _) as [[cc2 err2]|] eqn:B; cbn [bind] in H; [|discriminate H].
    assert (X : cc_useTBs cc2 = cc_useTBs cc /\ cc_aud cc2 = mkAud (au_key (cc_aud cc)) s /\ cc_bindings cc2 = cc_bindings cc /\
       match err2 with Some _ => cc_tbs cc2 = cc_tbs cc | None =>
           (cc_tbs cc2 = cc_tbs cc \/ cc_tbs cc2 = map_del beq uname (cc_tbs cc) \/
            exists df tb, r_df msg = Some (DProof (Some df)) /\ dp_tb df = Some tb /\ cc_tbs cc2 = map_set beq uname tb (cc_tbs cc)) end).
    { unfold updateTBs in B. destruct (negb _); [injection B as <- <-; cbn; auto 10|].
      assert (PROM : forall (r : result (option ErrorCode)), (do err <- r;
         match err with Some x => Ok (set_aud cc (mkAud (au_key (cc_aud cc)) s), Some x)
         | None => do cc'' <- store_tb (set_aud cc (mkAud (au_key (cc_aud cc)) s)) uname (dp_tb df); Ok (cc'', None) end) = Ok (cc2, err2) ->
         cc_useTBs cc2 = cc_useTBs cc /\ cc_aud cc2 = mkAud (au_key (cc_aud cc)) s /\ cc_bindings cc2 = cc_bindings cc /\
         match err2 with Some _ => cc_tbs cc2 = cc_tbs cc | None =>
           (cc_tbs cc2 = cc_tbs cc \/ cc_tbs cc2 = map_del beq uname (cc_tbs cc) \/
            exists df tb, r_df msg = Some (DProof (Some df)) /\ dp_tb df = Some tb /\ cc_tbs cc2 = map_set beq uname tb (cc_tbs cc)) end).
      { intros r Q. destruct r as [[x|]|]; cbn [bind] in Q; [injection Q as <- <-; cbn; auto| |discriminate Q].
        destruct (dp_tb df) as [tb|] eqn:ETB; [|discriminate Q]. unfold store_tb in Q. cbn [deref bind] in Q. injection Q as <- <-. cbn. rewrite D. do 3 (split; auto). right. right. exists df, tb. auto. }
      destruct (Z.eqb t RegistrationType).
      - destruct (ap0 df) as [oap|]; cbn [bind] in B; [|discriminate B].
        destruct (proofType oap) as [pt|]; cbn [bind] in B; [|discriminate B].
        destruct (isAbsence pt); [exact (PROM _ B)|]. injection B as <- <-. cbn. auto 10.
      - destruct (Z.eqb t KeyLookupType); [|discriminate B].
        destruct (ap0 df) as [oap|]; cbn [bind] in B; [|discriminate B].
        destruct (proofType oap) as [pt|]; cbn [bind] in B; [|discriminate B].
        destruct (_ && negb _).
        + destruct (deref oap); cbn [bind] in B; [|discriminate B].
          destruct (verifyFulfilledPromise _ _ _) as [[x|]|]; cbn [bind] in B; [injection B as <- <-; cbn; auto 10| |discriminate B].
          injection B as <- <-. cbn. auto 10.
        + destruct (_ && _); [exact (PROM _ B)|]. injection B as <- <-. cbn. auto 10. }
    destruct X as (X1 & X2 & X3 & X4). destruct err2 as [x|]; cbv iota in H.
    - injection H as <- <-. rewrite X2. split; auto. split; auto. split; [|discriminate].
      right. exists ap, s. split; auto. split; auto. split; eauto.
    - injection H as <- <-. cbn [cc_useTBs cc_aud cc_tbs cc_bindings]. rewrite X2. split; auto. split; auto. split; [|eauto].
      right. exists ap, s. split; auto. split; auto. split; eauto. split; auto. rewrite X3. split; auto. rewrite D in X4. exact X4.
  Qed.
End Facts.
