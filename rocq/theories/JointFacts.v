(** Honest runs of client and directory: lemmas behind C30. *)
From Coq Require Import List NArith ZArith Lia Bool Arith.
From Verif Require Import Base Utils Crypto Tree TreeFacts TreeSpec STR PAD PADSpec PADFacts PADMain Protocol Directory DirSpec DirFacts DirMain
  Auditor AudSpec AudFacts Client ClientSpec ClientFacts Prop_Directory.
Import ListNotations.

Section Outcomes.
  Context {C : Crypto}.

  (** A proof of inclusion for another key. *)
  Lemma other_key_inclusion cc t msg uname k ap s pol leaf :
    (t = KeyLookupType /\ r_error msg = ReqSuccess) \/ (t = RegistrationType /\ r_error msg = ReqNameExisted) ->
    answer msg ap s -> next_str (cc_aud cc) s -> d_pol s = Some pol ->
    vrf_verify (pol_vrf pol) uname (ap_lookup ap) (ap_vrf ap) = true ->
    ProofType ap = Ok ProofOfInclusion -> ap_leaf ap = Some leaf -> obytes (pn_value leaf) <> k ->
    HandleResponse cc t msg uname (Some k) = Ok (set_aud cc (mkAud (au_key (cc_aud cc)) s), Some CheckBindingsDiffer).
  Proof.
    intros TE (df & aps & strs & D & HA & HS) N P V PT L NK.
    set (cc1 := set_aud cc (mkAud (au_key (cc_aud cc)) s)).
    assert (VP : verifyAuthPath uname (Some k) ap s = Ok (Some CheckBindingsDiffer)).
    { unfold verifyAuthPath. rewrite P. cbn [deref bind]. rewrite V. cbn [negb]. rewrite L. cbn [deref bind].
      destruct N as (NB & _). destruct (d_body s) as [b|]; [|congruence]. cbn [deref bind].
      unfold Verify. rewrite PT, L. cbn [bind]. destruct (beq_spec (obytes (pn_value leaf)) (obytes (Some k))); [contradiction|]. reflexivity. }
    assert (U : updateSTR cc t df = Ok (cc1, None)).
    { apply update_str_ok. split; [tauto|]. exists s, strs. auto. }
    assert (NE : is_error (r_error msg) = false) by (destruct TE as [(_ & ->)|(_ & ->)]; reflexivity).
    unfold HandleResponse, Validate. rewrite NE, D, HA, HS. cbn [bind].
    assert (K : checkConsistency cc1 t (r_error msg) df uname (Some k) = Ok (Some CheckBindingsDiffer)).
    { unfold checkConsistency, verifyRegistration, verifyKeyLookup, ap0, str0. rewrite HA, HS. unfold index. cbn [nth_error bind].
      unfold proofType. cbn [deref bind]. rewrite PT. cbn [bind]. rewrite VP.
      destruct TE as [(-> & ->)|(-> & ->)]; reflexivity. }
    rewrite U. cbn [bind]. rewrite K. destruct TE as [(-> & _)|(-> & _)]; reflexivity.
  Qed.

  (** A promise for another key, with a valid proof of absence. *)
  Lemma other_key_promise cc t msg uname k ap s pol b leaf df tb :
    cc_useTBs cc = true ->
    (t = KeyLookupType /\ r_error msg = ReqSuccess) \/
      (t = RegistrationType /\ (r_error msg = ReqSuccess \/ r_error msg = ReqNameExisted)) ->
    answer msg ap s -> next_str (cc_aud cc) s -> d_pol s = Some pol -> d_body s = Some b ->
    vrf_verify (pol_vrf pol) uname (ap_lookup ap) (ap_vrf ap) = true ->
    ProofType ap = Ok ProofOfAbsence -> ap_leaf ap = Some leaf -> Verify ap uname (Some k) (s_hash b) = Ok None ->
    r_df msg = Some (DProof (Some df)) -> dp_tb df = Some tb ->
    sign_verify (au_key (cc_aud cc)) (TB_Serialize tb (sig_of s)) (tb_sig tb) = true -> tb_index tb = ap_lookup ap ->
    tb_value tb <> k ->
    HandleResponse cc t msg uname (Some k) = Ok (set_aud cc (mkAud (au_key (cc_aud cc)) s), Some CheckBindingsDiffer).
  Proof.
    intros UT TE (df' & aps & strs & D' & HA & HS) N P B V PT L VF D TB SV TI NK.
    rewrite D in D'. injection D' as <-.
    set (cc1 := set_aud cc (mkAud (au_key (cc_aud cc)) s)).
    assert (VP : verifyAuthPath uname (Some k) ap s = Ok None) by (apply verify_path_ok; exists pol, b, leaf; auto).
    assert (U : updateSTR cc t df = Ok (cc1, None)).
    { apply update_str_ok. split; [tauto|]. exists s, strs. auto. }
    assert (NE : is_error (r_error msg) = false) by (destruct TE as [(_ & ->)|(_ & [->| ->])]; reflexivity).
    unfold HandleResponse, Validate. rewrite NE, D, HA, HS. cbn [bind].
    assert (K : checkConsistency cc1 t (r_error msg) df uname (Some k) = Ok None).
    { unfold checkConsistency, verifyRegistration, verifyKeyLookup, ap0, str0. rewrite HA, HS. unfold index. cbn [nth_error bind].
      unfold proofType. cbn [deref bind]. rewrite PT. cbn [bind isAbsence negb]. rewrite VP.
      destruct TE as [(-> & ->)|(-> & [->| ->])]; cbn [cc1 set_aud cc_useTBs]; rewrite ?UT; reflexivity. }
    rewrite U. cbn [bind]. rewrite K. cbn [bind].
    assert (Q : updateTBs cc1 t (r_error msg) df uname (Some k) = Ok (cc1, Some CheckBindingsDiffer)).
    { assert (R : verifyReturnedPromise cc1 df (Some k) = Ok (Some CheckBindingsDiffer)).
      { unfold verifyReturnedPromise, ap0, str0. rewrite HA, HS. unfold index. cbn [nth_error bind]. rewrite TB. cbn [deref bind].
        unfold str_sig. rewrite B. cbn [bind]. unfold sig_of in SV. rewrite B in SV. unfold Aud_Verify. change (au_key (cc_aud cc1)) with (au_key (cc_aud cc)).
        rewrite SV, TI, beq_refl. cbn [negb]. destruct (beq_spec (tb_value tb) k); [contradiction|reflexivity]. }
      unfold updateTBs, ap0. change (cc_useTBs cc1) with (cc_useTBs cc). rewrite UT, HA. unfold index. cbn [nth_error bind negb].
      unfold proofType. cbn [deref bind]. rewrite PT. cbn [bind isAbsence negb]. rewrite R.
      destruct TE as [(-> & ->)|(-> & [->| ->])]; reflexivity. }
    rewrite Q. destruct TE as [(-> & _)|(-> & _)]; reflexivity.
  Qed.

  (** Presence and absence as shown by an honest path, whatever key is passed. *)
  Lemma shows_verify vpk name ap h key v leaf : shows vpk name ap v h -> ap_leaf ap = Some leaf ->
    match v with Some k => key = None \/ key = Some k | None => True end ->
    Verify ap name (match key with Some k => Some k | None => pn_value leaf end) h = Ok None.
  Proof.
    intros (_ & V & leaf' & L & PV & PT) L' K. rewrite L in L'. injection L' as <-. destruct v as [k|].
    - destruct K as [-> | ->]; rewrite ?PV; exact V.
    - unfold Verify in *. rewrite PT, L in *. cbn [bind] in *. exact V.
  Qed.
End Outcomes.

Section Joint.
  Context {C : Crypto} (OK : CryptoOk C).
  Variables (dl0 : N) (vk sk : bytes) (size : nat) (r1 r2 : option bytes).
  Notation built := (dir_built dl0 vk sk size r1 r2).

  Lemma honest_str h d : built h d -> few h ->
    signed_by (sign_pub sk) (LatestSTR d) /\ exists b p, d_body (LatestSTR d) = Some b /\ d_pol (LatestSTR d) = Some p /\ pol_vrf p = vrf_pub vk.
  Proof.
    intros B F. assert (F' : (N.of_nat (dupdates h) < two64)%N) by (unfold few, two64 in *; lia).
    destruct (built_dir_inv OK _ _ _ _ _ _ _ _ B F') as (pops & hist & I & _ & _).
    pose proof (latest_nth dl0 vk sk size d h pops hist I) as L.
    destruct (hist_str OK dl0 vk sk size d h pops hist _ _ I L) as (_ & P & S & _). split; auto.
    eexists _, _. split; [reflexivity|]. split; [exact P|reflexivity].
  Qed.

  Lemma update_next h d : built h d -> few (h ++ [DUpdate]) ->
    extends (LatestSTR (Directory_Update d)) (LatestSTR d).
  Proof.
    intros B F. unfold few in F. rewrite dupdates_app in F. cbn [dupdates] in F.
    assert (F' : (N.of_nat (dupdates h) < two64)%N) by (unfold two64 in *; lia).
    destruct (built_dir_inv OK _ _ _ _ _ _ _ _ B F') as (pops & hist & I & _ & _).
    pose proof (latestEpoch_eq dl0 vk sk size d h pops hist I) as E. unfold latestEpoch in E.
    unfold extends, DirSTR_VerifyHashChain, LatestSTR, NewDirSTR, Directory_Update, Update. cbn [dr_pad].
    destruct (evict (dr_pad d)) as [snap loaded]. cbn [pd_latest signTreeRoot NewSTR st_body d_body]. f_equal.
    unfold VerifyHashChain. cbn [s_pepoch s_epoch s_phash]. rewrite beq_refl, N.eqb_refl, !andb_true_r.
    rewrite E. unfold add64, two64. rewrite N.mod_small by lia. destruct (N.eqb_spec (N.of_nat (dupdates h) + 1) 0); [lia|].
    apply N.eqb_eq. lia.
  Qed.

  Record joint_inv (h : list dir_op) (d : Directory) (cc : Checks) (lag : nat) : Prop := {
    ji_built : built h d;
    ji_use : cc_useTBs cc = true;
    ji_key : au_key (cc_aud cc) = sign_pub sk;
    ji_str : match lag with
             | 0 => au_str (cc_aud cc) = LatestSTR d
             | 1 => extends (LatestSTR d) (au_str (cc_aud cc))
             | _ => False end;
    ji_tbs : forall n tb, map_get beq n (cc_tbs cc) = Some tb -> tb_index tb = idx_of vk n /\ reg h n = Some (tb_value tb)
  }.

  Lemma joint_next h d cc lag : joint_inv h d cc lag -> few h -> next_str (cc_aud cc) (LatestSTR d).
  Proof.
    intros [B U K S _] F. destruct (honest_str h d B F) as (SG & b & p & EB & _). split; [congruence|].
    destruct lag as [|[|lag]]; [left; auto|right; rewrite K; auto|contradiction].
  Qed.

  (** After a contact the client is at the latest STR; the rest of the
      invariant follows from what happened to the promises. *)
  Lemma contact_inv h h' d d' cc cc' lag name : joint_inv h d cc lag -> built h' d' -> (exists x, h' = h ++ x) ->
    LatestSTR d' = LatestSTR d ->
    cc_useTBs cc' = true -> cc_aud cc' = mkAud (sign_pub sk) (LatestSTR d) ->
    (cc_tbs cc' = cc_tbs cc \/ cc_tbs cc' = map_del beq name (cc_tbs cc) \/
     exists tb, cc_tbs cc' = map_set beq name tb (cc_tbs cc) /\ tb_index tb = idx_of vk name /\ reg h' name = Some (tb_value tb)) ->
    joint_inv h' d' cc' 0.
  Proof.
    intros [B U K S T] B' (x & Ex) EL U' A' TB. constructor; auto.
    - rewrite A'. reflexivity.
    - rewrite A'. cbn [au_str]. auto.
    - assert (OLD : forall n tb, map_get beq n (cc_tbs cc) = Some tb -> tb_index tb = idx_of vk n /\ reg h' n = Some (tb_value tb)).
      { intros n tb M. destruct (T n tb M) as (T1 & T2). split; auto. rewrite Ex. apply reg_mono. exact T2. }
      intros n tb M. destruct TB as [E|[E|(tb0 & E & E1 & E2)]]; rewrite E in M; auto.
      + destruct (beq_spec n name) as [->|NE]; [rewrite map_get_del_same in M; discriminate M|].
        rewrite map_get_del_other in M by (auto using beq_eq). auto.
      + destruct (beq_spec n name) as [->|NE].
        * rewrite map_get_set_same in M by apply beq_eq. injection M as <-. auto.
        * rewrite map_get_set_other in M by (auto using beq_eq). auto.
  Qed.

  (** What the checks make of an honest answer. *)
  Lemma honest_answer h h' d d' cc lag t name key ap otb e v :
    joint_inv h d cc lag -> few h -> built h' d' -> (exists x, h' = h ++ x) -> LatestSTR d' = LatestSTR d ->
    ap_lookup ap = idx_of vk name ->
    shows (vrf_pub vk) name ap v (tree_hash_of (LatestSTR d)) ->
    (v <> None -> v = reg h' name) ->
    (forall tb, otb = Some tb -> tb_index tb = ap_lookup ap /\ reg h' name = Some (tb_value tb) /\
       sign_verify (sign_pub sk) (TB_Serialize tb (sig_of (LatestSTR d))) (tb_sig tb) = true) ->
    match v with
    | Some _ => (t = KeyLookupType /\ e = ReqSuccess) \/ (t = RegistrationType /\ e = ReqNameExisted)
    | None => (t = KeyLookupType /\ e = ReqNameNotFound /\ reg h' name = None) \/
        (otb <> None /\ ((t = KeyLookupType /\ e = ReqSuccess) \/ (t = RegistrationType /\ (e = ReqSuccess \/ e = ReqNameExisted))))
    end ->
    let msg := mkResp e (Some (DProof (Some (mkDP [Some ap] [Some (LatestSTR d)] otb)))) in
    let err := match key, reg h' name with
               | Some key, Some k => if beq k key then None else Some CheckBindingsDiffer
               | _, _ => None end in
    exists cc', HandleResponse cc t msg name key = Ok (cc', err) /\ joint_inv h' d' cc' 0.
  Proof.
    intros JI F B' EX EL LK SH RV TB CASES msg err.
    pose proof (joint_next _ _ _ _ JI F) as NS. pose proof JI as [B U K S T].
    destruct (honest_str h d B F) as (SG & b & p & EB & EP & PV).
    assert (AN : answer msg ap (LatestSTR d)) by (exists (mkDP [Some ap] [Some (LatestSTR d)] otb), [], []; auto).
    pose proof SH as (VR & VF & leaf & AL & LV & PT).
    assert (TH : tree_hash_of (LatestSTR d) = s_hash b) by (unfold tree_hash_of; rewrite EB; reflexivity).
    assert (FIN : forall cc' err, HandleResponse cc t msg name key = Ok (cc', err) ->
       (exists ap s, answer msg ap s /\ au_str (cc_aud cc') = s) -> 
       joint_inv h' d' cc' 0).
    { intros cc' er H (ap' & s' & AN' & ES).
      assert (s' = LatestSTR d) as -> by (destruct AN as (? & ? & ? & D1 & _ & S1); destruct AN' as (? & ? & ? & D2 & _ & S2); congruence).
      destruct (handle_state _ _ _ _ _ _ _ H) as (U' & K' & D & _).
      apply (contact_inv h h' d d' cc cc' lag name); auto. { congruence. }
      { destruct (cc_aud cc') as [k0 s0]. cbn in *. congruence. }
      destruct D as [->|(ap1 & s1 & _ & _ & _ & D)]; [left; reflexivity|]. destruct er as [e0|]; [left; apply D|].
      destruct D as (_ & _ & [D|[D|(df & tb & D1 & D2 & D)]]); auto.
      right. right. exists tb. cbn [msg r_df] in D1. injection D1 as <-. cbn [dp_tb] in D2.
      destruct (TB tb D2) as (T1 & T2 & _). split; auto. split; auto. congruence. }
    (* accepted answers *)
    assert (ACC : err = None -> exists cc', HandleResponse cc t msg name key = Ok (cc', err) /\ joint_inv h' d' cc' 0).
    { intro EE. assert (AC : acceptable cc t msg name key).
      { exists (mkDP [Some ap] [Some (LatestSTR d)] otb), ap, [], (LatestSTR d), [], p, b, leaf, (match v with Some _ => ProofOfInclusion | None => ProofOfAbsence end).
        split; [reflexivity|]. split; [reflexivity|]. split; [reflexivity|]. split; [exact NS|]. split; [exact EP|]. split; [exact EB|].
        split; [exact AL|]. split; [exact PT|]. split; [rewrite PV; exact VR|]. split.
        - rewrite <- TH. apply (shows_verify _ _ _ _ _ _ _ SH AL). destruct v as [k|]; auto.
          unfold err in EE. rewrite <- (RV ltac:(discriminate)) in EE. destruct key as [key|]; auto.
          destruct (beq_spec k key); [right; congruence|discriminate EE].
        - cbn [msg r_error dp_tb]. destruct v as [k|].
          + destruct CASES as [(-> & ->)|(-> & ->)]; [right|left; auto]. split; auto. split; auto.
            intros tb M. destruct (T name tb M) as (T1 & T2). split; [congruence|]. rewrite LV. cbn [obytes].
            destruct EX as (x & ->). apply (reg_mono _ x) in T2. rewrite <- (RV ltac:(discriminate)) in T2. congruence.
          + destruct CASES as [(-> & -> & _)|(NT & CASES)]; [left; auto|right]. split; [tauto|].
            destruct otb as [tb|]; [|congruence]. exists tb. split; auto. destruct (TB tb eq_refl) as (T1 & T2 & T3).
            split; [rewrite K; exact T3|]. split; auto. intros k EK. unfold err in EE. rewrite EK, T2 in EE.
            destruct (beq_spec (tb_value tb) k); [auto|discriminate EE]. }
      apply (proj2 (handle_accepts_iff cc t msg name key U)) in AC. destruct AC as (cc' & H). exists cc'. rewrite EE. split; auto.
      apply (FIN cc' None H). destruct (handle_state _ _ _ _ _ _ _ H) as (_ & _ & _ & A). apply (A eq_refl). }
    destruct err as [e0|] eqn:EE; [|exact (ACC eq_refl)]. clear ACC.
    unfold err in EE. destruct key as [key|]; [|discriminate EE]. destruct (reg h' name) as [k|] eqn:R; [|discriminate EE].
    destruct (beq_spec k key) as [|NK]; [discriminate EE|]. injection EE as <-.
    set (cc1 := set_aud cc (mkAud (au_key (cc_aud cc)) (LatestSTR d))). exists cc1.
    assert (H : HandleResponse cc t msg name (Some key) = Ok (cc1, Some CheckBindingsDiffer)).
    { destruct v as [k'|].
      - specialize (RV ltac:(discriminate)). injection RV as <-.
        apply (other_key_inclusion cc t msg name key ap (LatestSTR d) p leaf); auto; try (rewrite PV; exact VR).
        rewrite LV. exact NK.
      - destruct CASES as [(_ & _ & X)|(NT & CASES)]; [discriminate X|].
        destruct otb as [tb|]; [|congruence]. destruct (TB tb eq_refl) as (T1 & T2 & T3). injection T2 as T2.
        apply (other_key_promise cc t msg name key ap (LatestSTR d) p b leaf (mkDP [Some ap] [Some (LatestSTR d)] (Some tb)) tb); auto; try congruence.
        rewrite <- TH. exact (shows_verify _ _ _ _ (Some key) _ _ SH AL I). }
    split; auto. apply (FIN cc1 _ H). exists ap, (LatestSTR d). auto.
  Qed.

  Lemma joint_step_inv h d cc lag op : joint_inv h d cc lag ->
    few (h ++ server_op op) -> vrf_good vk (contact_names op ++ names_of (h ++ server_op op)) ->
    wf_contact op -> prompt lag [op] ->
    exists d' cc', joint_step d cc op = Ok (d', cc', outcome h op) /\
      joint_inv (h ++ server_op op) d' cc'
        (if is_contact op then 0 else match op with JOther DUpdate => 1 | _ => lag end).
  Proof.
    intros JI F SP W PR. pose proof JI as [B U K S T].
    assert (F0 : few h) by (unfold few in *; rewrite dupdates_app in F; lia).
    assert (F0' : (N.of_nat (dupdates h) < two64)%N) by (unfold few, two64 in *; lia).
    destruct op as [op|r name key|name key]; cbn [joint_step server_op is_contact contact_names outcome] in *.
    - destruct op as [r name key| |t]; cbn [dir_step bind].
      + destruct (built_dir_inv OK _ _ _ _ _ _ _ _ B F0') as (pops & hist & I & _ & _).
        destruct (register_inv OK dl0 vk sk size d h pops hist r name key I) as (d' & resp & pops' & E & _ & LS & _).
        exists d', cc. rewrite E. cbn [bind]. split; auto.
        assert (LE : LatestSTR d' = LatestSTR d) by (unfold LatestSTR; rewrite LS; reflexivity).
        constructor; auto.
        * eapply built_snoc; [exact B|]. cbn [dir_run dir_step]. rewrite E. reflexivity.
        * rewrite LE. exact S.
        * intros n tb M. destruct (T n tb M) as (T1 & T2). split; auto. apply reg_mono. exact T2.
      + exists (Directory_Update d), cc. split; auto. destruct PR as (-> & _). constructor; auto.
        * eapply built_snoc; [exact B|]. reflexivity.
        * rewrite S. apply (update_next h); auto.
        * intros n tb M. destruct (T n tb M) as (T1 & T2). split; auto. apply reg_mono. exact T2.
      + exists (SetPolicies d t), cc. split; auto. constructor; auto.
        * eapply built_snoc; [exact B|]. reflexivity.
        * intros n tb M. destruct (T n tb M) as (T1 & T2). split; auto. apply reg_mono. exact T2.
    - destruct W as (NN & NK).
      assert (SP1 : vrf_good vk (name :: names_of h)).
      { apply (vrf_good_incl vk _ _) with (2 := SP). intros a Ia. cbn [app]. rewrite names_app, in_app_iff. cbn [names_of flat_map op_names app In] in *. tauto. }
      destruct (built_dir_inv OK _ _ _ _ _ _ _ _ B F0') as (pops & hist & I & _ & _).
      destruct (register_inv OK dl0 vk sk size d h pops hist (Some r) name key I) as (d1 & resp1 & pops' & E1 & _ & LS & _).
      destruct (C24_register C OK dl0 vk sk size r1 r2 h d (Some r) name key B F0 SP1) as (d' & resp & E & X).
      rewrite E in E1. injection E1 as <- <-.
      assert (ZN : is_nil name || is_nil key = false) by (destruct name, key; [congruence|congruence|congruence|reflexivity]). rewrite ZN in X.
      destruct X as (_ & X1 & X2 & X3).
      assert (LE : LatestSTR d' = LatestSTR d) by (unfold LatestSTR; rewrite LS; reflexivity).
      assert (B' : built (h ++ [DRegister (Some r) name key]) d').
      { eapply built_snoc; [exact B|]. cbn [dir_run dir_step]. rewrite E. reflexivity. }
      assert (RG : reg (h ++ [DRegister (Some r) name key]) name = Some (match reg h name with Some k => k | None => key end)).
      { rewrite reg_app. cbn [fold_left reg_step]. rewrite ZN, beq_refl. destruct (reg h name); reflexivity. }
      assert (FIN : forall ap otb e v, resp = NewRegistrationProof ap (LatestSTR d) otb e ->
         ap_lookup ap = idx_of vk name -> shows (vrf_pub vk) name ap v (tree_hash_of (LatestSTR d)) ->
         (v <> None -> v = reg (h ++ [DRegister (Some r) name key]) name) ->
         (forall tb, otb = Some tb -> tb_index tb = ap_lookup ap /\ reg (h ++ [DRegister (Some r) name key]) name = Some (tb_value tb) /\
            sign_verify (sign_pub sk) (TB_Serialize tb (sig_of (LatestSTR d))) (tb_sig tb) = true) ->
         match v with
         | Some _ => (RegistrationType = KeyLookupType /\ e = ReqSuccess) \/ (RegistrationType = RegistrationType /\ e = ReqNameExisted)
         | None => (RegistrationType = KeyLookupType /\ e = ReqNameNotFound /\ reg (h ++ [DRegister (Some r) name key]) name = None) \/
             (otb <> None /\ ((RegistrationType = KeyLookupType /\ e = ReqSuccess) \/ (RegistrationType = RegistrationType /\ (e = ReqSuccess \/ e = ReqNameExisted))))
         end ->
         exists d'0 cc', (do (d'1, resp0) <- Register d (Some r) name key;
            do (cc'0, err) <- HandleResponse cc RegistrationType resp0 name (Some key); Ok (d'1, cc'0, [err])) =
            Ok (d'0, cc', [match reg h name with Some k => if beq k key then None else Some CheckBindingsDiffer | None => None end]) /\
          joint_inv (h ++ [DRegister (Some r) name key]) d'0 cc' 0).
      { intros ap otb e v -> LK SH V TB CS.
        destruct (honest_answer h (h ++ [DRegister (Some r) name key]) d d' cc lag RegistrationType name (Some key) ap otb e v)
          as (cc' & H & J); eauto.
        exists d', cc'. split; auto. rewrite E. cbn [bind]. unfold NewRegistrationProof. rewrite H. cbn [bind]. rewrite RG.
        destruct (reg h name) as [k|]; [reflexivity|]. rewrite beq_refl. reflexivity. }
      destruct (reg h name) as [k|] eqn:R.
      + destruct (visible h name) as [k'|] eqn:V.
        * pose proof (visible_reg _ _ _ V) as R'. rewrite R in R'. injection R' as <-.
          destruct (X3 k eq_refl) as (_ & ap & EQ & LK & SH). eapply (FIN ap None ReqNameExisted (Some k)); auto. discriminate.
        * destruct (X2 k eq_refl eq_refl) as (_ & ap & tb & EQ & LK & SH & T1 & T2 & T3).
          eapply (FIN ap (Some tb) ReqNameExisted None); auto; try congruence.
          -- intros tb' X. injection X as <-. split; auto. split; auto. rewrite RG, T2. reflexivity.
          -- right. split; [discriminate|]. right. auto.
      + destruct (X1 eq_refl ltac:(discriminate)) as (ap & tb & EQ & LK & SH & T1 & T2 & T3).
        eapply (FIN ap (Some tb) ReqSuccess None); auto; try congruence.
        * intros tb' X. injection X as <-. split; auto. split; auto. rewrite RG, T2. reflexivity.
        * right. split; [discriminate|]. right. auto.
    - rewrite app_nil_r in *.
      destruct (C24_key_lookup C OK dl0 vk sk size r1 r2 h d name B F0) as (ap & LK & SH & X); auto.
      assert (FIN : forall otb e, KeyLookup d name = Ok (NewKeyLookupProof ap (LatestSTR d) otb e) ->
         (forall tb, otb = Some tb -> tb_index tb = ap_lookup ap /\ reg h name = Some (tb_value tb) /\
            sign_verify (sign_pub sk) (TB_Serialize tb (sig_of (LatestSTR d))) (tb_sig tb) = true) ->
         match visible h name with
         | Some _ => (KeyLookupType = KeyLookupType /\ e = ReqSuccess) \/ (KeyLookupType = RegistrationType /\ e = ReqNameExisted)
         | None => (KeyLookupType = KeyLookupType /\ e = ReqNameNotFound /\ reg h name = None) \/
             (otb <> None /\ ((KeyLookupType = KeyLookupType /\ e = ReqSuccess) \/ (KeyLookupType = RegistrationType /\ (e = ReqSuccess \/ e = ReqNameExisted))))
         end ->
         exists d' cc', (do resp <- KeyLookup d name; do (cc'0, err) <- HandleResponse cc KeyLookupType resp name key; Ok (d, cc'0, [err])) =
            Ok (d', cc', [match key with Some key0 => match reg h name with Some k => if beq k key0 then None else Some CheckBindingsDiffer | None => None end | None => None end]) /\
          joint_inv h d' cc' 0).
      { intros otb e EQ TB CS.
        destruct (honest_answer h h d d cc lag KeyLookupType name key ap otb e (visible h name)) as (cc' & H & J); auto.
        { exists []. rewrite app_nil_r. reflexivity. }
        { intro V. destruct (visible h name) as [k|] eqn:V'; [|congruence]. symmetry. exact (visible_reg _ _ _ V'). }
        exists d, cc'. split; auto. rewrite EQ. cbn [bind]. unfold NewKeyLookupProof. rewrite H. reflexivity. }
      destruct (visible h name) as [k|] eqn:V.
      + apply (FIN None ReqSuccess); auto. discriminate.
      + destruct (reg h name) as [k|] eqn:R.
        * destruct X as (tb & EQ & T1 & T2 & T3). apply (FIN (Some tb) ReqSuccess); auto.
          -- intros tb' X. injection X as <-. split; auto. split; auto. congruence.
          -- right. split; [discriminate|]. auto.
        * apply (FIN None ReqNameNotFound); auto. discriminate.
  Qed.

  Lemma joint_run_inv : forall ops h d cc lag, joint_inv h d cc lag ->
    few (h ++ server_ops ops) -> vrf_good vk (flat_map contact_names ops ++ names_of (h ++ server_ops ops)) ->
    Forall wf_contact ops -> prompt lag ops ->
    exists d' cc' lag', joint_run d cc ops = Ok (d', cc', outcomes h ops) /\
      joint_inv (h ++ server_ops ops) d' cc' lag' /\
      (forall l op, ops = l ++ [op] -> is_contact op = true -> lag' = 0).
  Proof.
    induction ops as [|op ops IH]; intros h d cc lag JI F SP W PR.
    - exists d, cc, lag. cbn [server_ops flat_map]. rewrite app_nil_r. split; auto. split; auto.
      intros l op X. destruct l; discriminate X.
    - cbn [server_ops flat_map] in *. fold (server_ops ops) in *. rewrite app_assoc in *.
      inversion W as [|? ? W1 W2]; subst.
      destruct (joint_step_inv h d cc lag op JI) as (d1 & cc1 & E & J1); auto.
      { unfold few in *. rewrite dupdates_app in F. lia. }
      { apply (vrf_good_incl vk _ _) with (2 := SP). intros a Ia. rewrite !names_app in *. rewrite !in_app_iff in *. tauto. }
      { destruct op as [[r n k| |t]|r n k|n k]; cbn [prompt] in *; tauto. }
      destruct (IH (h ++ server_op op) d1 cc1 _ J1) as (d' & cc' & lag' & E' & J' & L); auto.
      { apply (vrf_good_incl vk _ _) with (2 := SP). intros a Ia. rewrite !in_app_iff in *. tauto. }
      { destruct op as [[r n k| |t]|r n k|n k]; cbn [prompt is_contact] in *; tauto. }
      destruct ops as [|op' ops'].
      + cbn [joint_run] in E'. exists d1, cc1, (if is_contact op then 0 else match op with JOther DUpdate => 1 | _ => lag end).
        cbn [joint_run outcomes]. rewrite E. cbn [bind fst snd]. split; [reflexivity|].
        cbn [server_ops flat_map]. rewrite app_nil_r. split; auto.
        intros l o X IC. destruct l as [|? l]; [injection X as <-; rewrite IC; reflexivity|]. destruct l; discriminate X.
      + exists d', cc', lag'. cbn [joint_run outcomes] in *. rewrite E. cbn [bind fst snd].
        rewrite E'. cbn [bind]. split; auto. split; auto.
        intros l o X IC. destruct l as [|? l]; [discriminate X|]. injection X as _ X. exact (L _ _ X IC).
  Qed.
End Joint.
