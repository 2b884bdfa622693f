(** Properties of the key directory (C22-C29, and the missing domain separation
    of C15).

    Reading guide.  [dir_built dl0 vk sk size r1 r2 ops d]: the directory [d]
    results from [New] (deadline, VRF key, signing key, snapshot capacity) by
    the calls [ops].  [reg ops name]: the key registered for [name];
    [visible ops name]: the same restricted to what the latest snapshot shows;
    [dupto k ops]: the history up to the [k]-th update; [published ... k s]: [s]
    is what [LatestSTR] said in epoch [k].  All in [DirSpec.v].
    [vrf_spread 248 vk names] says that the VRF indices of the names involved
    differ in their first 248 bits (two names with one index share a leaf; see
    C01 for the 248); [vrf_good vk names] says in addition that the VRF proofs
    for these names verify (see C49 for when the code's do). *)
From Coq Require Import List NArith ZArith Lia Bool Arith.
From Verif Require Import Base Utils Crypto Tree TreeFacts TreeSpec TreeHist PathFacts SoundFacts TreeMain
  STR PAD PADSpec PADFacts PADMain Protocol Directory DirSpec DirFacts DirMain.
Import ListNotations.

Definition few (ops : list dir_op) : Prop := (N.of_nat (dupdates ops) < 2 ^ 64 - 1)%N.

(** ** C24: response codes *)
Theorem C24_register : forall (C : Crypto), CryptoOk C ->
  forall dl0 vk sk size r1 r2 ops d r name key,
  dir_built dl0 vk sk size r1 r2 ops d -> few ops -> vrf_good vk (name :: names_of ops) ->
  exists d' resp, Register d r name key = Ok (d', resp) /\
  if is_nil name || is_nil key then d' = d /\ resp = NewErrorResponse ErrMalformedMessage
  else
    (reg ops name = None -> r = None -> d' = d /\ resp = NewErrorResponse ErrDirectory) /\
    (reg ops name = None -> r <> None -> exists ap tb,
       resp = NewRegistrationProof ap (LatestSTR d) (Some tb) ReqSuccess /\
       ap_lookup ap = idx_of vk name /\ shows (vrf_pub vk) name ap None (tree_hash_of (LatestSTR d)) /\
       tb_index tb = ap_lookup ap /\ tb_value tb = key /\
       sign_verify (sign_pub sk) (TB_Serialize tb (sig_of (LatestSTR d))) (tb_sig tb) = true) /\
    (forall k, reg ops name = Some k -> visible ops name = None -> d' = d /\ exists ap tb,
       resp = NewRegistrationProof ap (LatestSTR d) (Some tb) ReqNameExisted /\
       ap_lookup ap = idx_of vk name /\ shows (vrf_pub vk) name ap None (tree_hash_of (LatestSTR d)) /\
       tb_index tb = ap_lookup ap /\ tb_value tb = k /\
       sign_verify (sign_pub sk) (TB_Serialize tb (sig_of (LatestSTR d))) (tb_sig tb) = true) /\
    (forall k, visible ops name = Some k -> d' = d /\ exists ap,
       resp = NewRegistrationProof ap (LatestSTR d) None ReqNameExisted /\
       ap_lookup ap = idx_of vk name /\ shows (vrf_pub vk) name ap (Some k) (tree_hash_of (LatestSTR d))).
Proof.
  intros C OK dl0 vk sk size r1 r2 ops d r name key B F [SP VW].
  assert (F' : (N.of_nat (dupdates ops) < two64)%N) by (unfold few, two64 in *; lia).
  destruct (built_dir_inv OK _ _ _ _ _ _ _ _ B F') as (pops & hist & I & S & _).
  assert (S' : dir_sem vk sk d ops pops).
  { apply S. intros a b Ia Ib. apply SP; simpl; auto. }
  destruct (register_inv OK dl0 vk sk size d ops pops hist r name key I) as (d' & resp & pops' & E & I' & LS & X).
  exists d', resp. split; auto.
  destruct (X S') as (_ & Y). { intros a b Ia Ib. rewrite names_app, in_app_iff in Ia, Ib. apply SP; simpl in *; tauto. }
  destruct (is_nil name || is_nil key); [exact Y|]. destruct Y as (ap & leaf & AL & EL & Y).
  destruct (dir_lookup OK dl0 vk sk size d ops pops hist (latestEpoch d) (pd_latest (dr_pad d)) (dupdates ops) name I S' SP)
    as (ap' & leaf' & E' & AL' & LK & VR & M); auto.
  { apply latest_get. } { eapply latest_nth; eauto. }
  rewrite EL in E'. injection E' as <-. rewrite AL in AL'. injection AL' as <-.
  change (reg (dupto (dupdates ops) ops) name) with (visible ops name) in M.
  assert (SH : shows (vrf_pub vk) name ap (visible ops name) (tree_hash_of (LatestSTR d))).
  { unfold shows. rewrite LK, VR. split; [apply VW; left; reflexivity|].
    destruct (visible ops name); destruct M as (_ & M1 & M2 & M3); (split; [apply M3|exists leaf; auto]). }
  assert (TB : forall k, let tb := tb_for vk sk (s_sig (st_body (pd_latest (dr_pad d)))) name k in
     tb_index tb = ap_lookup ap /\ tb_value tb = k /\
     sign_verify (sign_pub sk) (TB_Serialize tb (sig_of (LatestSTR d))) (tb_sig tb) = true).
  { intros k tb. rewrite LK. split; auto. split; auto. unfold TB_Serialize, sig_of, LatestSTR. simpl. apply ok_sign. exact OK. }
  destruct (visible ops name) as [k0|] eqn:V.
  - pose proof (visible_reg _ _ _ V) as R. destruct Y as (_ & _ & Y1 & Y2).
    split; [congruence|]. split; [congruence|]. split; [discriminate|].
    intros k Hk. injection Hk as <-. split; auto. exists ap. auto.
  - destruct Y as (_ & Y). destruct (reg ops name) as [k0|] eqn:R.
    + split; [discriminate|]. split; [discriminate|]. split; [|discriminate].
      intros k Hk _. injection Hk as <-. destruct Y as (Y1 & Y2). split; auto. exists ap. eexists. split; [exact Y2|]. auto.
    + split; [|split; [|split; [discriminate|discriminate]]].
      * intros _ ->. exact Y.
      * intros _ Hr. destruct r as [r|]; [|congruence]. exists ap. eexists. split; [exact Y|]. auto.
Qed.
Print Assumptions C24_register.

Theorem C24_key_lookup : forall (C : Crypto), CryptoOk C ->
  forall dl0 vk sk size r1 r2 ops d name,
  dir_built dl0 vk sk size r1 r2 ops d -> few ops -> vrf_good vk (name :: names_of ops) -> name <> [] ->
  exists ap,
  ap_lookup ap = idx_of vk name /\
  shows (vrf_pub vk) name ap (visible ops name) (tree_hash_of (LatestSTR d)) /\
  match visible ops name, reg ops name with
  | Some _, _ => KeyLookup d name = Ok (NewKeyLookupProof ap (LatestSTR d) None ReqSuccess)
  | None, Some k => exists tb, KeyLookup d name = Ok (NewKeyLookupProof ap (LatestSTR d) (Some tb) ReqSuccess) /\
       tb_index tb = ap_lookup ap /\ tb_value tb = k /\
       sign_verify (sign_pub sk) (TB_Serialize tb (sig_of (LatestSTR d))) (tb_sig tb) = true
  | None, None => KeyLookup d name = Ok (NewKeyLookupProof ap (LatestSTR d) None ReqNameNotFound)
  end.
Proof.
  intros C OK dl0 vk sk size r1 r2 ops d name B F [SP VW] NN.
  assert (F' : (N.of_nat (dupdates ops) < two64)%N) by (unfold few, two64 in *; lia).
  destruct (built_dir_inv OK _ _ _ _ _ _ _ _ B F') as (pops & hist & I & S & _).
  assert (S' : dir_sem vk sk d ops pops). { apply S. intros a b Ia Ib. apply SP; simpl; auto. }
  destruct (dir_lookup OK dl0 vk sk size d ops pops hist (latestEpoch d) (pd_latest (dr_pad d)) (dupdates ops) name I S' SP)
    as (ap & leaf & E & AL & LK & VR & M); auto.
  { apply latest_get. } { eapply latest_nth; eauto. }
  exists ap. change (reg (dupto (dupdates ops) ops) name) with (visible ops name) in M.
  split; [exact LK|]. split.
  { unfold shows. rewrite LK, VR. split; [apply VW; left; reflexivity|].
    destruct (visible ops name); destruct M as (_ & M1 & M2 & M3); (split; [apply M3|exists leaf; auto]). }
  unfold KeyLookup, Lookup. fold (latestEpoch d). destruct (is_nil name) eqn:Z; [destruct name; [congruence|discriminate]|].
  rewrite E. cbn [bind]. pose proof (ds_tbs _ _ _ _ _ S' name) as T. rewrite (di_use _ _ _ _ _ _ _ _ I), T.
  destruct (visible ops name) as [k|] eqn:V; destruct M as (M0 & _); rewrite M0; cbn [bind]; auto.
  destruct (reg ops name) as [k|]; auto. eexists. split; [reflexivity|]. rewrite LK. split; auto. split; auto.
  unfold TB_Serialize, sig_of, LatestSTR. simpl. apply ok_sign. exact OK.
Qed.
Print Assumptions C24_key_lookup.

(** [ReqSuccess] and [ReqNameNotFound] of a lookup in a past epoch. *)
Theorem C24_lookup_in_epoch : forall (C : Crypto), CryptoOk C ->
  forall dl0 vk sk size r1 r2 ops d name e resp,
  dir_built dl0 vk sk size r1 r2 ops d -> few ops -> vrf_spread 248 vk (name :: names_of ops) -> name <> [] ->
  e <= dupdates ops ->
  KeyLookupInEpoch d name (N.of_nat e) = Ok resp ->
  resp = NewErrorResponse ErrDirectory \/
  exists ap strs, resp = NewKeyLookupInEpochProof ap strs
      (match reg (dupto e ops) name with Some _ => ReqSuccess | None => ReqNameNotFound end).
Proof.
  intros C OK dl0 vk sk size r1 r2 ops d name e resp B F SP NN Le H.
  assert (F' : (N.of_nat (dupdates ops) < two64)%N) by (unfold few, two64 in *; lia).
  destruct (built_dir_inv OK _ _ _ _ _ _ _ _ B F') as (pops & hist & I & S & _).
  assert (S' : dir_sem vk sk d ops pops). { apply S. intros a b Ia Ib. apply SP; simpl; auto. }
  unfold KeyLookupInEpoch in H. rewrite (latestEpoch_eq _ _ _ _ _ _ _ _ I) in H.
  destruct (is_nil name) eqn:Z; [destruct name; [congruence|discriminate]|]. simpl orb in H.
  destruct (N.ltb_spec (N.of_nat (dupdates ops)) (N.of_nat e)); [lia|].
  destruct (GetSTR (dr_pad d) (N.of_nat e)) as [s|] eqn:G.
  - destruct (getstr_hist _ _ _ _ _ _ _ _ _ _ (di_pad _ _ _ _ _ _ _ _ I) G) as (k & N & Lk & Ek).
    rewrite (di_upd _ _ _ _ _ _ _ _ I) in *. assert (EK : k = e) by lia. rewrite EK in N.
    destruct (dir_lookup OK dl0 vk sk size d ops pops hist (N.of_nat e) s e name I S' SP G N Le) as (ap & leaf & E & AL & LK & VR & M).
    rewrite E in H. cbn [bind] in H.
    destruct (epochs (N.of_nat e) (N.of_nat (dupdates ops))) as [eps|]; cbn [bind] in H; [|discriminate].
    destruct (mapM _ eps) as [strs|]; cbn [bind] in H; [|discriminate].
    right. exists ap, strs. destruct (reg (dupto e ops) name); destruct M as (M0 & _); rewrite M0 in H; cbn [bind] in H; congruence.
  - unfold LookupInEpoch in H. rewrite G in H. cbn [bind] in H. left. congruence.
Qed.
Print Assumptions C24_lookup_in_epoch.

(** ** C22 *)
Theorem C22_one_registration_per_name : forall (C : Crypto), CryptoOk C ->
  forall dl0 vk sk size r1 r2 ops d r name key d1 resp ops' d2 r' key',
  dir_built dl0 vk sk size r1 r2 ops d ->
  Register d r name key = Ok (d1, resp) -> r_error resp = ReqSuccess ->
  dir_run d1 ops' = Ok d2 ->
  few (ops ++ DRegister r name key :: ops') ->
  vrf_good vk (names_of (ops ++ DRegister r name key :: ops')) ->
  key' <> [] ->
  (* registering the name again is refused and changes nothing *)
  (exists resp', Register d2 r' name key' = Ok (d2, resp') /\ r_error resp' = ReqNameExisted) /\
  (* and the directory still answers with the registered key, as promise or as proof *)
  exists ap tb, KeyLookup d2 name = Ok (NewKeyLookupProof ap (LatestSTR d2) tb ReqSuccess) /\
    match tb with
    | Some tb => tb_value tb = key
    | None => exists leaf, ap_leaf ap = Some leaf /\ pn_value leaf = Some key
    end.
Proof.
  intros C OK dl0 vk sk size r1 r2 ops d r name key d1 resp ops' d2 r' key' B R1 RS R2 F SP NK.
  set (all := ops ++ DRegister r name key :: ops') in *.
  assert (B2 : dir_built dl0 vk sk size r1 r2 all d2).
  { destruct B as (d0 & N & R). exists d0. split; auto. unfold all. rewrite dir_run_app, R. cbn [bind dir_run dir_step].
    rewrite R1. cbn [bind]. exact R2. }
  assert (F0 : few ops) by (unfold few, all in *; rewrite dupdates_app in F; lia).
  assert (IN : In name (names_of all)) by (unfold all; rewrite names_app, in_app_iff; simpl; auto).
  assert (SP0 : vrf_good vk (name :: names_of ops)).
  { apply (vrf_good_incl vk _ _) with (2 := SP). intros k Ik. unfold all. rewrite names_app, in_app_iff. simpl in *. intuition auto. }
  assert (SP2 : vrf_good vk (name :: names_of all)).
  { apply (vrf_good_incl vk _ _) with (2 := SP). intros k Ik. simpl in *. intuition (subst; auto). }
  (* the first registration really registered *)
  assert (REG : reg all name = Some key /\ name <> []).
  { destruct (C24_register C OK dl0 vk sk size r1 r2 ops d r name key B F0 SP0) as (dd & rr & E & X).
    rewrite R1 in E. injection E as <- <-.
    destruct (is_nil name || is_nil key) eqn:NIL. { destruct X as (_ & ->). discriminate RS. }
    destruct X as (X1 & X2 & X3 & X4). destruct (reg ops name) as [k|] eqn:RG.
    - exfalso. destruct (visible ops name) as [v|].
      + destruct (X4 v eq_refl) as (_ & ap & -> & _). discriminate RS.
      + destruct (X3 k eq_refl eq_refl) as (_ & ap & tb & -> & _). discriminate RS.
    - split; [|destruct name; [discriminate NIL|discriminate]]. destruct r as [r|].
      + replace all with ((ops ++ [DRegister (Some r) name key]) ++ ops') by (unfold all; rewrite <- app_assoc; reflexivity).
        apply reg_mono. rewrite reg_app. simpl. rewrite NIL, beq_refl, RG. reflexivity.
      + destruct (X1 eq_refl eq_refl) as (_ & ->). discriminate RS. }
  destruct REG as (RG & NN). split.
  - destruct (C24_register C OK dl0 vk sk size r1 r2 all d2 r' name key' B2 F SP2) as (dd & rr & E & X).
    exists rr. destruct (is_nil name || is_nil key') eqn:NIL.
    { exfalso. destruct name, key'; simpl in NIL; congruence. }
    destruct X as (_ & _ & X3 & X4). destruct (visible all name) as [v|].
    + destruct (X4 v eq_refl) as (-> & ap & -> & _). auto.
    + destruct (X3 key RG eq_refl) as (-> & ap & tb & -> & _). auto.
  - destruct (C24_key_lookup C OK dl0 vk sk size r1 r2 all d2 name B2 F SP2 NN) as (ap & LK & SH & X).
    destruct (visible all name) as [v|] eqn:V.
    + exists ap, None. split; auto. destruct SH as (_ & _ & leaf & AL & PV & _). exists leaf. split; auto.
      rewrite (visible_reg _ _ _ V) in RG. congruence.
    + rewrite RG in X. destruct X as (tb & E & _ & TV & _). exists ap, (Some tb). auto.
Qed.
Print Assumptions C22_one_registration_per_name.

(** ** C23 *)
Lemma dupto_past a b : 0 < dupdates b -> exists c, dupto (dupdates (a ++ b)) (a ++ b) = a ++ c.
Proof.
  intro U. induction a as [|op a (c & IH)]; [eexists; reflexivity|].
  assert (P : 0 < dupdates (a ++ b)) by (rewrite dupdates_app; lia).
  exists c. destruct op; cbn [app dupdates]; (destruct (dupdates (a ++ b)) eqn:E; [lia|]); cbn [dupto]; rewrite IH; reflexivity.
Qed.
Theorem C23_promises_fulfilled : forall (C : Crypto), CryptoOk C ->
  forall dl0 vk sk size r1 r2 ops d r name key d1 ap0 str0 tb e0 ops' d2,
  dir_built dl0 vk sk size r1 r2 ops d ->
  Register d r name key = Ok (d1, NewRegistrationProof ap0 str0 (Some tb) e0) ->
  dir_run d1 ops' = Ok d2 -> 0 < dupdates ops' ->        (* at least one Update later *)
  few (ops ++ DRegister r name key :: ops') ->
  vrf_good vk (names_of (ops ++ DRegister r name key :: ops')) ->
  exists ap leaf, KeyLookup d2 name = Ok (NewKeyLookupProof ap (LatestSTR d2) None ReqSuccess) /\
    ap_leaf ap = Some leaf /\ ap_lookup ap = tb_index tb /\ pn_index leaf = tb_index tb /\ pn_value leaf = Some (tb_value tb) /\
    shows (vrf_pub vk) name ap (Some (tb_value tb)) (tree_hash_of (LatestSTR d2)).
Proof.
  intros C OK dl0 vk sk size r1 r2 ops d r name key d1 ap0 str0 tb e0 ops' d2 B R1 R2 U F SP.
  set (all := ops ++ DRegister r name key :: ops') in *.
  assert (B2 : dir_built dl0 vk sk size r1 r2 all d2).
  { destruct B as (d0 & N & R). exists d0. split; auto. unfold all. rewrite dir_run_app, R. cbn [bind dir_run dir_step].
    rewrite R1. cbn [bind]. exact R2. }
  assert (F0 : few ops) by (unfold few, all in *; rewrite dupdates_app in F; lia).
  assert (SP0 : vrf_good vk (name :: names_of ops)).
  { apply (vrf_good_incl vk _ _) with (2 := SP). intros k Ik. unfold all. rewrite names_app, in_app_iff. simpl in *. intuition auto. }
  assert (IN : In name (names_of all)) by (unfold all; rewrite names_app, in_app_iff; simpl; auto).
  assert (SP2 : vrf_good vk (name :: names_of all)).
  { apply (vrf_good_incl vk _ _) with (2 := SP). intros k Ik. simpl in *. intuition (subst; auto). }
  (* the binding promised is registered *)
  assert (REG : reg (ops ++ [DRegister r name key]) name = Some (tb_value tb) /\ tb_index tb = idx_of vk name /\ name <> []).
  { assert (F' : (N.of_nat (dupdates ops) < two64)%N) by (unfold few, two64 in *; lia).
    destruct (built_dir_inv OK _ _ _ _ _ _ _ _ B F') as (pops & hist & I & S & _).
    assert (S' : dir_sem vk sk d ops pops). { apply S. intros a b Ia Ib. apply (proj1 SP0); simpl; auto. }
    destruct (register_inv OK dl0 vk sk size d ops pops hist r name key I) as (d' & resp & pops' & E & I' & LS & X).
    rewrite R1 in E. injection E as <- <-.
    destruct (X S') as (_ & Y). { intros a b Ia Ib. rewrite names_app, in_app_iff in Ia, Ib. apply (proj1 SP0); simpl in *; tauto. }
    destruct (is_nil name || is_nil key) eqn:NIL; [destruct Y; discriminate|].
    assert (NN : name <> []) by (destruct name; [discriminate NIL|discriminate]).
    destruct Y as (ap & leaf & AL & EL & Y). rewrite reg_app.
    destruct (visible ops name) as [v|]; [destruct Y as (_ & _ & _ & Y); discriminate|].
    destruct Y as (_ & Y). cbn [fold_left].
    destruct (reg ops name) as [k|] eqn:RG.
    - destruct Y as (_ & Y). injection Y as _ _ _ ->. cbn [tb_for tb_value tb_index]. split; auto.
      apply reg_step_mono. exact RG.
    - destruct r as [r|]; [|destruct Y; discriminate]. injection Y as _ _ _ ->. cbn [tb_for tb_value tb_index]. split; auto.
      simpl. rewrite NIL, beq_refl, RG. reflexivity. }
  destruct REG as (RG & TI & NN).
  assert (V : visible all name = Some (tb_value tb)).
  { unfold visible. replace all with ((ops ++ [DRegister r name key]) ++ ops') by (unfold all; rewrite <- app_assoc; reflexivity).
    set (a := ops ++ [DRegister r name key]) in *. clearbody a. clear -RG U.
    assert (X : exists b, dupto (dupdates (a ++ ops')) (a ++ ops') = a ++ b) by (apply dupto_past; exact U).
    destruct X as (b & ->). apply reg_mono. exact RG. }
  destruct (C24_key_lookup C OK dl0 vk sk size r1 r2 all d2 name B2 F SP2 NN) as (ap & LK & SH & X).
  rewrite V in X, SH. pose proof SH as (_ & _ & leaf & AL & PV & PT).
  exists ap, leaf. split; auto. split; auto.
  split; [congruence|]. split; [|split; auto].
  unfold ProofType in PT. rewrite AL in PT.
  destruct (beq (ap_lookup ap) (pn_index leaf)) eqn:Q; [|discriminate]. apply beq_eq in Q. congruence.
Qed.
Print Assumptions C23_promises_fulfilled.

(** ** C26, C27: range answers *)
Section Range.
  Context {C : Crypto} (OK : CryptoOk C).
  Variables (dl0 : N) (vk sk : bytes) (size : nat) (r1 r2 : option bytes).

  Lemma chain_hist ops d pops hist a strs :
    dir_inv dl0 vk sk size d ops pops hist -> few ops ->
    (forall k, k <= dupdates ops -> exists s, nth_error hist k = Some s /\
        published dl0 vk sk size r1 r2 ops k (NewDirSTR s)) ->
    (forall i s, nth_error strs i = Some s -> exists s0, nth_error hist (a + i) = Some s0 /\ s = NewDirSTR s0) ->
    chain_from dl0 vk sk size r1 r2 ops a strs.
  Proof.
    intros I F P H.
    assert (F' : (N.of_nat (dupdates ops) < two64)%N) by (unfold few, two64 in *; lia).
    split.
    - intros i s Hi. destruct (H i s Hi) as (s0 & N & ->).
      pose proof (nth_error_lt _ _ _ N) as L.
      rewrite (pi_len _ _ _ _ _ _ _ _ (di_pad _ _ _ _ _ _ _ _ I)), (di_upd _ _ _ _ _ _ _ _ I) in L.
      destruct (P (a + i) ltac:(lia)) as (s1 & N1 & PU). rewrite N in N1. injection N1 as <-.
      destruct (hist_str OK dl0 vk sk size d ops pops hist _ _ I N) as (E1 & _ & E2 & _). auto.
    - intros i s s' H1 H2. destruct (H _ _ H1) as (s0 & N0 & ->). destruct (H _ _ H2) as (s1 & N1 & ->).
      replace (a + S i) with (S (a + i)) in N1 by lia.
      eapply hist_chain; eauto.
  Qed.
End Range.

Theorem C26_lookup_in_epoch : forall (C : Crypto), CryptoOk C ->
  forall dl0 vk sk size r1 r2 ops d name,
  dir_built dl0 vk sk size r1 r2 ops d -> few ops -> vrf_good vk (name :: names_of ops) -> name <> [] ->
  exists lo, window size (dupdates ops) lo /\
  (forall e, e < lo -> KeyLookupInEpoch d name (N.of_nat e) = Ok (NewErrorResponse ErrDirectory)) /\
  (forall e, lo <= e -> e <= dupdates ops -> exists ap s0 strs,
     KeyLookupInEpoch d name (N.of_nat e) = Ok (NewKeyLookupInEpochProof ap (s0 :: strs)
        (match reg (dupto e ops) name with Some _ => ReqSuccess | None => ReqNameNotFound end)) /\
     length (s0 :: strs) = S (dupdates ops) - e /\
     chain_from dl0 vk sk size r1 r2 ops e (s0 :: strs) /\
     shows (vrf_pub vk) name ap (reg (dupto e ops) name) (tree_hash_of s0)).
Proof.
  intros C OK dl0 vk sk size r1 r2 ops d name B F [SP VW] NN.
  assert (F' : (N.of_nat (dupdates ops) < two64)%N) by (unfold few, two64 in *; lia).
  destruct (built_dir_inv OK _ _ _ _ _ _ _ _ B F') as (pops & hist & I & S & P).
  assert (S' : dir_sem vk sk d ops pops). { apply S. intros a b Ia Ib. apply SP; simpl; auto. }
  destruct (cache_window dl0 vk sk size _ _ _ _ I) as (lo & W1 & W2 & W3 & G1 & G2).
  exists lo. split; [split; auto|]. 
  assert (Z : is_nil name = false) by (destruct name; [congruence|reflexivity]).
  split.
  - intros e Le. unfold KeyLookupInEpoch. rewrite (latestEpoch_eq _ _ _ _ _ _ _ _ I), Z. simpl orb.
    destruct (N.ltb_spec (N.of_nat (dupdates ops)) (N.of_nat e)); [lia|].
    unfold LookupInEpoch. rewrite G1 by auto. reflexivity.
  - intros e L1 L2.
    destruct (nth_error hist e) as [s0|] eqn:N. 2:{ destruct (P e L2) as (? & X & _). congruence. }
    assert (G : GetSTR (dr_pad d) (N.of_nat e) = Some s0) by (rewrite G2; auto).
    destruct (dir_lookup OK dl0 vk sk size d ops pops hist (N.of_nat e) s0 e name I S' SP G N L2) as (ap & leaf & E & AL & LK & VR & M).
    destruct (range_strs dl0 vk sk size d ops pops hist lo e (dupdates ops) I G2 L1 ltac:(lia) F) as (eps & strs & E1 & E2 & L & Q).
    destruct strs as [|s1 strs]; [cbn [length] in L; lia|].
    destruct (Q 0 s1 eq_refl) as (s0' & N' & ->). rewrite Nat.add_0_r, N in N'. injection N' as <-.
    exists ap, (NewDirSTR s0), strs. split; [|split; [exact L|split]].
    + unfold KeyLookupInEpoch. rewrite (latestEpoch_eq _ _ _ _ _ _ _ _ I), Z. simpl orb.
      destruct (N.ltb_spec (N.of_nat (dupdates ops)) (N.of_nat e)); [lia|].
      rewrite E. cbn [bind]. rewrite E1. cbn [bind]. rewrite E2. cbn [bind].
      destruct (reg (dupto e ops) name); destruct M as (-> & _); reflexivity.
    + eapply chain_hist; eauto.
    + unfold shows. rewrite LK, VR. split; [apply VW; left; reflexivity|].
      destruct (reg (dupto e ops) name); destruct M as (_ & M1 & M2 & M3); (split; [apply M3|exists leaf; auto]).
Qed.
Print Assumptions C26_lookup_in_epoch.

Theorem C26_monitor : forall (C : Crypto), CryptoOk C ->
  forall dl0 vk sk size r1 r2 ops d name,
  dir_built dl0 vk sk size r1 r2 ops d -> few ops -> vrf_good vk (name :: names_of ops) -> name <> [] ->
  exists lo, window size (dupdates ops) lo /\
  forall a b,
  (* requests for the future or with an empty range are malformed *)
  (dupdates ops < a \/ b < a -> Monitor d name (N.of_nat a) (N.of_nat b) = Ok (NewErrorResponse ErrMalformedMessage)) /\
  (* epochs already dropped are answered with an error *)
  (a < lo -> a <= b -> Monitor d name (N.of_nat a) (N.of_nat b) = Ok (NewErrorResponse ErrDirectory)) /\
  (* everything else completely *)
  (lo <= a -> a <= b -> a <= dupdates ops -> exists aps strs,
     Monitor d name (N.of_nat a) (N.of_nat b) = Ok (NewMonitoringProof aps strs) /\
     length aps = S (Nat.min b (dupdates ops)) - a /\ length strs = length aps /\
     chain_from dl0 vk sk size r1 r2 ops a strs /\
     forall i ap s, nth_error aps i = Some ap -> nth_error strs i = Some s ->
       shows (vrf_pub vk) name ap (reg (dupto (a + i) ops) name) (tree_hash_of s)).
Proof.
  intros C OK dl0 vk sk size r1 r2 ops d name B F [SP VW] NN.
  assert (F' : (N.of_nat (dupdates ops) < two64)%N) by (unfold few, two64 in *; lia).
  destruct (built_dir_inv OK _ _ _ _ _ _ _ _ B F') as (pops & hist & I & S & P).
  assert (S' : dir_sem vk sk d ops pops). { apply S. intros a b Ia Ib. apply SP; simpl; auto. }
  destruct (cache_window dl0 vk sk size _ _ _ _ I) as (lo & W1 & W2 & W3 & G1 & G2).
  exists lo. split; [split; auto|]. intros a b.
  assert (Z : is_nil name = false) by (destruct name; [congruence|reflexivity]).
  unfold Monitor. rewrite (latestEpoch_eq _ _ _ _ _ _ _ _ I), Z. simpl orb.
  assert (EN : (if (N.of_nat (dupdates ops) <? N.of_nat b)%N then N.of_nat (dupdates ops) else N.of_nat b) = N.of_nat (Nat.min b (dupdates ops))).
  { destruct (N.ltb_spec (N.of_nat (dupdates ops)) (N.of_nat b)); f_equal; lia. }
  rewrite EN.
  assert (EP : epochs (N.of_nat a) (N.of_nat (Nat.min b (dupdates ops))) =
     Ok (map (fun i => N.of_nat (a + i)) (seq 0 (Datatypes.S (Nat.min b (dupdates ops)) - a)))).
  { apply epochs_ok. unfold few, two64 in *. lia. }
  split; [|split].
  - intros [H|H].
    + rewrite (proj2 (N.ltb_lt _ _)) by lia. reflexivity.
    + rewrite (proj2 (N.ltb_lt (N.of_nat b) (N.of_nat a))) by lia. rewrite orb_true_r. reflexivity.
  - intros L1 L2. rewrite (proj2 (N.ltb_ge (N.of_nat (dupdates ops)) _)), (proj2 (N.ltb_ge (N.of_nat b) _)) by lia. simpl orb. cbv iota.
    rewrite EP. cbn [bind].
    destruct (Datatypes.S (Nat.min b (dupdates ops)) - a) as [|m] eqn:M; [lia|].
    cbn [seq map]. cbn [monitor_loop]. rewrite Nat.add_0_r. unfold LookupInEpoch. rewrite G1 by auto. reflexivity.
  - intros L1 L2 L3. rewrite (proj2 (N.ltb_ge (N.of_nat (dupdates ops)) _)), (proj2 (N.ltb_ge (N.of_nat b) _)) by lia. simpl orb. cbv iota.
    rewrite EP. cbn [bind].
    destruct (monitor_loop_spec OK dl0 vk sk size d ops pops hist lo name I S' (conj SP VW) G2 (Datatypes.S (Nat.min b (dupdates ops)) - a) a L1 ltac:(lia))
      as (aps & strs & E & La & Ls & Q).
    rewrite E. cbn [bind]. exists aps, strs. split; auto. split; auto. split; [congruence|]. split.
    + eapply chain_hist; eauto. intros i s Hi. pose proof (nth_error_lt _ _ _ Hi). destruct (Q i ltac:(lia)) as (ap & s0 & Q1 & Q2 & Q3 & Q4).
      exists s0. split; auto. congruence.
    + intros i ap s Ha Hs. pose proof (nth_error_lt _ _ _ Hs). destruct (Q i ltac:(lia)) as (ap' & s0 & Q1 & Q2 & Q3 & Q4).
      rewrite Ha in Q1. injection Q1 as <-. rewrite Hs in Q2. injection Q2 as ->. exact Q4.
Qed.
Print Assumptions C26_monitor.

(** C27.  The request is answered completely when all its epochs are still held.
    If the first one has been dropped the call panics: see below. *)
Theorem C27_str_history : forall (C : Crypto), CryptoOk C ->
  forall dl0 vk sk size r1 r2 ops d,
  dir_built dl0 vk sk size r1 r2 ops d -> few ops ->
  exists lo, window size (dupdates ops) lo /\
  forall a b,
  (dupdates ops < a \/ b < a -> GetSTRHistory d (N.of_nat a) (N.of_nat b) = Ok (NewErrorResponse ErrMalformedMessage)) /\
  (lo <= a -> a <= b -> a <= dupdates ops -> exists strs,
     GetSTRHistory d (N.of_nat a) (N.of_nat b) = Ok (NewSTRHistoryRange (map Some strs)) /\
     length strs = S (Nat.min b (dupdates ops)) - a /\
     chain_from dl0 vk sk size r1 r2 ops a strs) /\
  (a < lo -> a <= b -> GetSTRHistory d (N.of_nat a) (N.of_nat b) = Panic).
Proof.
  intros C OK dl0 vk sk size r1 r2 ops d B F.
  assert (F' : (N.of_nat (dupdates ops) < two64)%N) by (unfold few, two64 in *; lia).
  destruct (built_dir_inv OK _ _ _ _ _ _ _ _ B F') as (pops & hist & I & S & P).
  destruct (cache_window dl0 vk sk size _ _ _ _ I) as (lo & W1 & W2 & W3 & G1 & G2).
  exists lo. split; [split; auto|]. intros a b.
  unfold GetSTRHistory. rewrite (latestEpoch_eq _ _ _ _ _ _ _ _ I).
  assert (EN : (if (N.of_nat (dupdates ops) <? N.of_nat b)%N then N.of_nat (dupdates ops) else N.of_nat b) = N.of_nat (Nat.min b (dupdates ops))).
  { destruct (N.ltb_spec (N.of_nat (dupdates ops)) (N.of_nat b)); f_equal; lia. }
  rewrite EN.
  split; [|split].
  - intros [H|H].
    + rewrite (proj2 (N.ltb_lt _ _)) by lia. reflexivity.
    + rewrite (proj2 (N.ltb_lt (N.of_nat b) (N.of_nat a))) by lia. rewrite orb_true_r. reflexivity.
  - intros L1 L2 L3. rewrite (proj2 (N.ltb_ge (N.of_nat (dupdates ops)) _)), (proj2 (N.ltb_ge (N.of_nat b) _)) by lia. simpl orb. cbv iota.
    destruct (range_strs dl0 vk sk size d ops pops hist lo a (Nat.min b (dupdates ops)) I G2 L1 ltac:(lia)) as (eps & strs & E1 & E2 & L & Q).
    { unfold few, two64 in *. lia. }
    rewrite E1. cbn [bind]. rewrite E2. cbn [bind]. exists strs. split; auto. split; auto. eapply chain_hist; eauto.
  - intros L1 L2. rewrite (proj2 (N.ltb_ge (N.of_nat (dupdates ops)) _)), (proj2 (N.ltb_ge (N.of_nat b) _)) by lia. simpl orb. cbv iota.
    rewrite epochs_ok by (unfold few, two64 in *; lia). cbn [bind].
    destruct (Datatypes.S (Nat.min b (dupdates ops)) - a) as [|m] eqn:M; [lia|].
    cbn [seq map]. rewrite mapM_panic; [reflexivity|]. rewrite Nat.add_0_r, G1 by auto. reflexivity.
Qed.
Print Assumptions C27_str_history.

(** Every directory that has run for more epochs than it keeps snapshots
    crashes on a request for its whole STR history. *)
Theorem C27_never_crashes_refuted : forall (C : Crypto), CryptoOk C ->
  forall dl0 vk sk size r1 r2 ops d b,
  dir_built dl0 vk sk size r1 r2 ops d -> few ops -> Nat.max 2 size <= dupdates ops ->
  GetSTRHistory d 0 (N.of_nat b) = Panic.
Proof.
  intros C OK dl0 vk sk size r1 r2 ops d b B F L.
  destruct (C27_str_history C OK _ _ _ _ _ _ _ _ B F) as (lo & (W1 & W2 & W3) & H).
  destruct (H 0 b) as (_ & _ & X). apply X; lia.
Qed.
Print Assumptions C27_never_crashes_refuted.

(** ** C25: no crash, on any history, names and epochs being arbitrary. *)
Theorem C25_no_crash : forall (C : Crypto), CryptoOk C ->
  forall dl0 vk sk size r1 r2 ops d,
  dir_built dl0 vk sk size r1 r2 ops d -> few ops ->
  forall r name key e1 e2,
  (exists d' resp, Register d r name key = Ok (d', resp)) /\
  (exists resp, KeyLookup d name = Ok resp) /\
  (exists resp, KeyLookupInEpoch d name e1 = Ok resp) /\
  (exists resp, Monitor d name e1 e2 = Ok resp).
Proof.
  intros C OK dl0 vk sk size r1 r2 ops d B F r name key e1 e2.
  assert (F' : (N.of_nat (dupdates ops) < two64)%N) by (unfold few, two64 in *; lia).
  destruct (built_dir_inv OK _ _ _ _ _ _ _ _ B F') as (pops & hist & I & _ & P).
  destruct (cache_window dl0 vk sk size _ _ _ _ I) as (lo & W1 & W2 & W3 & G1 & G2).
  assert (LT : forall ep, match GetSTR (dr_pad d) ep with
    | None => LookupInEpoch (dr_pad d) name ep = Ok None
    | Some s => exists ap b, LookupInEpoch (dr_pad d) name ep = Ok (Some ap) /\ leaf_matches ap = Ok b end).
  { intro ep. eapply lookup_total; eauto. }
  split; [|split; [|split]].
  - destruct (register_inv OK dl0 vk sk size d ops pops hist r name key I) as (d' & resp & pops' & E & _). eauto.
  - unfold KeyLookup, Lookup. fold (latestEpoch d). destruct (is_nil name); [eauto|].
    pose proof (LT (latestEpoch d)) as X. rewrite latest_get in X. destruct X as (ap & b & E & M). rewrite E. cbn [bind]. rewrite M. cbn [bind].
    destruct b; [eauto|]. destruct (if dr_useTBs d then _ else _); eauto.
  - unfold KeyLookupInEpoch. rewrite (latestEpoch_eq _ _ _ _ _ _ _ _ I).
    destruct (is_nil name); [simpl; eauto|]. simpl orb.
    destruct (N.ltb_spec (N.of_nat (dupdates ops)) e1); [eauto|].
    replace e1 with (N.of_nat (N.to_nat e1)) in * by lia. set (a := N.to_nat e1) in *. clearbody a.
    pose proof (LT (N.of_nat a)) as X. destruct (GetSTR (dr_pad d) (N.of_nat a)) as [s|] eqn:G; [|rewrite X; cbn [bind]; eauto].
    destruct X as (ap & b & E & M). rewrite E. cbn [bind].
    assert (lo <= a). { destruct (Nat.le_gt_cases lo a); auto. rewrite G1 in G by auto. discriminate. }
    destruct (range_strs dl0 vk sk size d ops pops hist lo a (dupdates ops) I G2 H0 ltac:(lia) F) as (eps & strs & E1 & E2 & _).
    rewrite E1. cbn [bind]. rewrite E2. cbn [bind]. rewrite M. cbn [bind]. destruct b; eauto.
  - unfold Monitor. rewrite (latestEpoch_eq _ _ _ _ _ _ _ _ I).
    destruct (is_nil name); [simpl; eauto|]. simpl orb.
    destruct (N.ltb_spec (N.of_nat (dupdates ops)) e1); [simpl; eauto|].
    destruct (N.ltb_spec e2 e1); [simpl; eauto|]. simpl orb. cbv iota.
    match goal with |- context [epochs e1 ?x] => assert (XX : (x <= N.of_nat (dupdates ops))%N) by (destruct (N.ltb_spec (N.of_nat (dupdates ops)) e2); lia); generalize dependent x end.
    intros x Hx. unfold epochs. destruct (N.eqb_spec x (two64 - 1)); [unfold few, two64 in *; lia|]. cbn [bind].
    generalize (map (fun i => (e1 + N.of_nat i)%N) (seq 0 (N.to_nat (x + 1 - e1)))). intro eps.
    assert (ML : exists o, monitor_loop d name eps = Ok o).
    { clear -LT. induction eps as [|ep eps (o & IH)]; [eexists; reflexivity|]. cbn [monitor_loop].
      specialize (LT ep). destruct (GetSTR (dr_pad d) ep) as [s|].
      - destruct LT as (ap & b & -> & _). cbn [bind NewDirSTR']. rewrite IH. cbn [bind]. eauto.
      - rewrite LT. cbn [bind]. eauto. }
    destruct ML as (o & ->). cbn [bind]. destruct o as [[aps strs]|]; eauto.
Qed.
Print Assumptions C25_no_crash.

(** ** C28: when a policy change takes effect *)

(** Exactly: the STR of epoch [k] carries the deadline that was set before the
    update that opened epoch [k-1]; so a change is announced by the second
    [Update] after [SetPolicies], not by the first. *)
Theorem C28_policy_of_each_epoch : forall (C : Crypto), CryptoOk C ->
  forall dl0 vk sk size r1 r2 ops d k s,
  dir_built dl0 vk sk size r1 r2 ops d -> few ops -> k <= dupdates ops ->
  published dl0 vk sk size r1 r2 ops k s ->
  d_pol s = Some (NewPolicies (deadline_after dl0 (dupto (k - 1) ops)) (vrf_pub vk)).
Proof.
  intros C OK dl0 vk sk size r1 r2 ops d k s B F L P.
  assert (F' : (N.of_nat (dupdates ops) < two64)%N) by (unfold few, two64 in *; lia).
  destruct (built_dir_inv OK _ _ _ _ _ _ _ _ B F') as (pops & hist & I & _ & Q).
  destruct (Q k L) as (s0 & N & P0). rewrite (published_fun _ _ _ _ _ _ _ _ _ _ P P0).
  destruct (hist_str OK dl0 vk sk size d ops pops hist k s0 I N) as (_ & E & _). exact E.
Qed.
Print Assumptions C28_policy_of_each_epoch.

Lemma deadline_eq : forall (C : Crypto), CryptoOk C ->
  forall dl0 vk sk size r1 r2 ops d, dir_built dl0 vk sk size r1 r2 ops d -> few ops ->
  EpochDeadline d = deadline_after dl0 (dupto (dupdates ops - 1) ops).
Proof.
  intros C OK dl0 vk sk size r1 r2 ops d B F.
  assert (F' : (N.of_nat (dupdates ops) < two64)%N) by (unfold few, two64 in *; lia).
  destruct (built_dir_inv OK _ _ _ _ _ _ _ _ B F') as (pops & hist & I & _ & Q).
  destruct (hist_str OK dl0 vk sk size d ops pops hist _ _ I (latest_nth _ _ _ _ _ _ _ _ I)) as (_ & E & _).
  unfold NewDirSTR in E. cbn [d_pol] in E. injection E as E. unfold EpochDeadline. rewrite E. reflexivity.
Qed.
Lemma built_snoc : forall (C : Crypto) dl0 vk sk size r1 r2 ops d ops' d',
  dir_built dl0 vk sk size r1 r2 ops d -> dir_run d ops' = Ok d' -> dir_built dl0 vk sk size r1 r2 (ops ++ ops') d'.
Proof.
  intros C dl0 vk sk size r1 r2 ops d ops' d' (d0 & N & R) R'. exists d0. split; auto. rewrite dir_run_app, R. exact R'.
Qed.

Theorem C28_effective_after_two_updates : forall (C : Crypto), CryptoOk C ->
  forall dl0 vk sk size r1 r2 ops d t,
  dir_built dl0 vk sk size r1 r2 ops d -> (N.of_nat (dupdates ops) < 2 ^ 64 - 3)%N ->
  EpochDeadline (Directory_Update (Directory_Update (SetPolicies d t))) = t.
Proof.
  intros C OK dl0 vk sk size r1 r2 ops d t B F.
  rewrite (deadline_eq C OK dl0 vk sk size r1 r2 ((ops ++ [DSetPolicies t; DUpdate]) ++ [DUpdate])).
  - replace (dupdates ((ops ++ [DSetPolicies t; DUpdate]) ++ [DUpdate]) - 1) with (dupdates (ops ++ [DSetPolicies t; DUpdate]))
      by (rewrite !dupdates_app; simpl; lia).
    rewrite dupto_app by auto. 
    replace (ops ++ [DSetPolicies t; DUpdate]) with ((ops ++ [DSetPolicies t]) ++ [DUpdate]) by (rewrite <- app_assoc; reflexivity).
    replace (dupdates ((ops ++ [DSetPolicies t]) ++ [DUpdate])) with (S (dupdates (ops ++ [DSetPolicies t])))
      by (rewrite !dupdates_app; simpl; lia).
    rewrite dupto_last. unfold deadline_after. rewrite !fold_left_app. reflexivity.
  - rewrite <- app_assoc. eapply built_snoc; [exact B|]. reflexivity.
  - unfold few. rewrite !dupdates_app. simpl. lia.
Qed.
Print Assumptions C28_effective_after_two_updates.

(** The next [Update] after [SetPolicies] ignores the new deadline altogether. *)
Theorem C28_next_update_refuted : forall (C : Crypto), CryptoOk C ->
  forall dl0 vk sk size r1 r2 ops d t,
  dir_built dl0 vk sk size r1 r2 ops d -> (N.of_nat (dupdates ops) < 2 ^ 64 - 2)%N ->
  EpochDeadline (Directory_Update (SetPolicies d t)) = deadline_after dl0 (dupto (dupdates ops) ops).
Proof.
  intros C OK dl0 vk sk size r1 r2 ops d t B F.
  rewrite (deadline_eq C OK dl0 vk sk size r1 r2 (ops ++ [DSetPolicies t; DUpdate])).
  - replace (dupdates (ops ++ [DSetPolicies t; DUpdate]) - 1) with (dupdates ops)
      by (rewrite !dupdates_app; simpl; lia).
    rewrite dupto_app by auto. reflexivity.
  - eapply built_snoc; [exact B|]. reflexivity.
  - unfold few. rewrite !dupdates_app. simpl. lia.
Qed.
Print Assumptions C28_next_update_refuted.

(** ** C29 *)
Theorem C29_configuration_constant : forall (C : Crypto), CryptoOk C ->
  forall dl0 vk sk size r1 r2 ops d k s,
  dir_built dl0 vk sk size r1 r2 ops d -> few ops -> k <= dupdates ops ->
  published dl0 vk sk size r1 r2 ops k s ->
  exists p, d_pol s = Some p /\ pol_vrf p = vrf_pub vk /\ pol_version p = Version /\ pol_hashid p = HashID.
Proof.
  intros. erewrite C28_policy_of_each_epoch by eauto. eexists. split; [reflexivity|]. auto.
Qed.
Print Assumptions C29_configuration_constant.
(** Temporary bindings are always on: a directory without them cannot be
    created, and every successful registration on every history carries one. *)
Theorem C29_temporary_bindings_always : forall (C : Crypto), CryptoOk C ->
  (forall dl0 vk sk size r1 r2, Directory_New dl0 vk sk size false r1 r2 = Panic) /\
  (forall dl0 vk sk size r1 r2 ops d r name key d' resp,
   dir_built dl0 vk sk size r1 r2 ops d -> few ops ->
   Register d r name key = Ok (d', resp) -> r_error resp = ReqSuccess ->
   exists ap str tb, resp = NewRegistrationProof ap str (Some tb) ReqSuccess).
Proof.
  intros C OK. split; [reflexivity|].
  intros dl0 vk sk size r1 r2 ops d r name key d' resp B F R E.
  assert (F' : (N.of_nat (dupdates ops) < two64)%N) by (unfold few, two64 in *; lia).
  destruct (built_dir_inv OK _ _ _ _ _ _ _ _ B F') as (pops & hist & I & _ & _).
  unfold Register in R. rewrite (di_use _ _ _ _ _ _ _ _ I) in R.
  destruct (is_nil name || is_nil key); [injection R as <- <-; discriminate E|].
  destruct (Lookup (dr_pad d) name) as [[ap|]|]; cbn [bind] in R; [|injection R as <- <-; discriminate E|discriminate R].
  destruct (leaf_matches ap) as [[|]|]; cbn [bind] in R; [injection R as <- <-; discriminate E| |discriminate R].
  destruct (map_get beq name (dr_tbs d)); [injection R as <- <-; discriminate E|].
  destruct (PAD_Set (dr_pad d) r name key) as [[pad|]|]; cbn [bind] in R; [|injection R as <- <-; discriminate E|discriminate R].
  injection R as <- <-. eauto.
Qed.
Print Assumptions C29_temporary_bindings_always.

(** ** C15: no domain separation between STRs and temporary bindings *)
Fixpoint le_num (b : bytes) : N :=
  match b with [] => 0%N | x :: b' => (Byte.to_N x + 256 * le_num b')%N end.
Lemma le_num_bytes b : le_bytes (length b) (le_num b) = b /\ (le_num b < 256 ^ N.of_nat (length b))%N.
Proof.
  induction b as [|x b (IH & IL)]; [split; reflexivity|]. cbn [length le_num le_bytes].
  pose proof (to_N_lt x).
  split.
  - f_equal.
    + apply to_N_inj. rewrite to_N_b8. rewrite (N.mul_comm 256), N.mod_add by lia. apply N.mod_small. auto.
    + rewrite (N.mul_comm 256), N.div_add by lia. rewrite N.div_small by auto. exact IH.
  - rewrite Nat2N.inj_succ, N.pow_succ_r'. nia.
Qed.
(** Every temporary binding a directory signs (the key having at least 8 bytes)
    is at the same time a correctly signed STR with well-sized hashes; the
    receiver does not check version, hash algorithm or VRF key length. *)
Theorem C15_tb_str_domain_refuted : forall (C : Crypto), CryptoOk C -> forall sk ssig idx key,
  length ssig = 64 -> length idx = 32 -> 8 <= length key ->
  let tb := mkTB idx key (sign_sign sk (ssig ++ idx ++ key)) in
  exists b p, str_sizes b /\ signed_by (sign_pub sk) (mkDir (Some b) (Some p)) /\ s_sig b = tb_sig tb.
Proof.
  intros C OK sk ssig idx key L1 L2 L3 tb.
  set (m := ssig ++ idx ++ key) in *.
  assert (Lm : 104 <= length m) by (unfold m; rewrite !app_length; lia).
  assert (CUT : forall n, n <= length m -> exists a c, m = a ++ c /\ length a = n).
  { intros n Hn. exists (firstn n m), (skipn n m). rewrite firstn_skipn, firstn_length. split; auto. lia. }
  assert (CUT2 : forall (m : bytes) n, n <= length m -> exists a c, m = a ++ c /\ length a = n).
  { intros m' n Hn. exists (firstn n m'), (skipn n m'). rewrite firstn_skipn, firstn_length. split; auto. lia. }
  clearbody m. clear CUT L1 L2 L3.
  destruct (CUT2 m 8 ltac:(lia)) as (e & m1 & Em & Le). rewrite Em, app_length in Lm.
  destruct (le_num_bytes e) as (Ee & Be). rewrite Le in *. change (256 ^ N.of_nat 8)%N with (2 ^ 64)%N in Be.
  assert (TAIL : forall pe m2, str_sizes (mkBody (repeat x00 32) (le_num e) pe (repeat x00 32) (tb_sig tb)) ->
     80 <= length m2 -> m1 = (if N.ltb 0 (le_num e) then ULongToBytes pe else []) ++ m2 ->
     exists b p, str_sizes b /\ signed_by (sign_pub sk) (mkDir (Some b) (Some p)) /\ s_sig b = tb_sig tb).
  { intros pe m2 SZ L2 Em1.
    destruct (CUT2 m2 32 ltac:(lia)) as (h & m3 & E2 & Lh). rewrite E2, app_length in L2.
    destruct (CUT2 m3 32 ltac:(lia)) as (ph & m4 & E3 & Lph). rewrite E3, app_length in L2.
    destruct (CUT2 m4 (length m4 - 8) ltac:(lia)) as (v & dl & E4 & Lv).
    assert (Ld : length dl = 8) by (apply (f_equal (@length _)) in E4; rewrite app_length in E4; lia).
    exists (mkBody h (le_num e) pe ph (tb_sig tb)), (mkPol v [] [] (le_num dl)).
    split; [|split; [|reflexivity]].
    - destruct SZ as (_ & _ & S3 & S4). repeat split; auto.
    - do 2 eexists. split; [reflexivity|]. split; [reflexivity|]. cbn [d_body s_sig tb_sig tb].
      replace (STR_Serialize _ _ _) with m; [apply ok_sign; exact OK|].
      unfold STR_Serialize, SerializeInternal, Policies_Serialize. cbn [s_epoch s_pepoch s_hash s_phash pol_version pol_hashid pol_vrf pol_deadline].
      unfold ULongToBytes. destruct (le_num_bytes dl) as (Ed & _). rewrite Ld in Ed. rewrite Ee, Ed.
      rewrite Em, Em1, E2, E3, E4. unfold ULongToBytes. rewrite <- !app_assoc. reflexivity. }
  destruct (N.ltb 0 (le_num e)) eqn:Z.
  - destruct (CUT2 m1 8 ltac:(lia)) as (pe & m2 & E1 & Lp). destruct (le_num_bytes pe) as (Ep & Bp).
    rewrite Lp in *. change (256 ^ N.of_nat 8)%N with (2 ^ 64)%N in Bp.
    apply (TAIL (le_num pe) m2); [repeat split; auto|..].
    + rewrite E1, app_length in Lm. lia.
    + unfold ULongToBytes. rewrite Ep. exact E1.
  - apply (TAIL 0%N m1); [repeat split; auto|..]; auto. lia.
Qed.
Print Assumptions C15_tb_str_domain_refuted.

(** ** Non-vacuity: a toy directory of capacity 2 with two names, three updates
    and a policy change. *)
Definition dir_ex_ops : list dir_op :=
  [DRegister (Some [x01]) [x61] [x31]; DUpdate; DSetPolicies 9; DRegister (Some [x02]) [x62] [x32];
   DRegister (Some [x03]) [x61] [x33]; DUpdate; DUpdate; DRegister (Some [x04]) [x63] [x34]].
Example dir_nonvacuous : exists d,
  @dir_built ToyCrypto 5 [x11] [x10] 2 (Some [x07]) (Some [x08]) dir_ex_ops d /\ few dir_ex_ops /\
  @vrf_good ToyCrypto [x11] ([x64] :: names_of dir_ex_ops) /\
  reg dir_ex_ops [x61] = Some [x31] /\ visible dir_ex_ops [x61] = Some [x31] /\
  reg dir_ex_ops [x63] = Some [x34] /\ visible dir_ex_ops [x63] = None /\ reg dir_ex_ops [x64] = None /\
  Nat.max 2 2 <= dupdates dir_ex_ops /\ EpochDeadline d = 9%N.
Proof.
  destruct (dir_history_runs ToyCrypto_ok 5 [x11] [x10] 2 [x07] [x08] dir_ex_ops) as (d & B); [cbv; reflexivity|].
  exists d. split; [exact B|]. split; [cbv; reflexivity|]. split.
  { split; [|intros k _; apply ToyCrypto_vrf]. assert (D : forall a b, In a ([x64] :: names_of dir_ex_ops) -> In b ([x64] :: names_of dir_ex_ops) ->
      (if list_eq_dec Bool.bool_dec (firstn 248 (ToBits (@idx_of ToyCrypto [x11] a))) (firstn 248 (ToBits (@idx_of ToyCrypto [x11] b)))
       then beq a b else true) = true).
    { cbn [names_of dir_ex_ops flat_map op_names app].
      assert (A : forallb (fun a => forallb (fun b => if list_eq_dec Bool.bool_dec (firstn 248 (ToBits (@idx_of ToyCrypto [x11] a)))
          (firstn 248 (ToBits (@idx_of ToyCrypto [x11] b))) then beq a b else true)
          [[x64];[x61];[x62];[x61];[x63]]) [[x64];[x61];[x62];[x61];[x63]] = true) by (vm_compute; reflexivity).
      intros a b Ia Ib. rewrite forallb_forall in A. pose proof (A a Ia) as A'. rewrite forallb_forall in A'. exact (A' b Ib). }
    intros a b Ia Ib E. specialize (D a b Ia Ib). destruct (list_eq_dec _ _ _); [|contradiction]. apply beq_eq. exact D. }
  repeat (split; [reflexivity|]). split; [cbv; lia|].
  rewrite (deadline_eq ToyCrypto ToyCrypto_ok _ _ _ _ _ _ _ _ B); [reflexivity|cbv; reflexivity].
Qed.
