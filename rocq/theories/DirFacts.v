(** Invariant of directory histories. *)
From Coq Require Import List NArith ZArith Lia Bool Arith.
From Verif Require Import Base Utils Crypto Tree TreeFacts TreeSpec TreeHist PathFacts SoundFacts TreeMain
  STR PAD PADSpec PADFacts PADMain Protocol Directory DirSpec.
Import ListNotations.

Lemma dupdates_app a b : dupdates (a ++ b) = dupdates a + dupdates b.
Proof. induction a as [|[] a IH]; simpl; auto. Qed.
Lemma dupto_app k a b : k <= dupdates a -> dupto k (a ++ b) = dupto k a.
Proof.
  revert k; induction a as [|op a IH]; intros k H.
  - simpl in H. assert (k = 0) by lia. subst. destruct b; reflexivity.
  - destruct k; [reflexivity|]. destruct op; simpl in *; f_equal; apply IH; lia.
Qed.
Lemma dupto_last a : dupto (S (dupdates a)) (a ++ [DUpdate]) = a ++ [DUpdate].
Proof. induction a as [|op a IH]; [reflexivity|]. destruct op; simpl; f_equal; apply IH. Qed.
Lemma dupto_prefix k a : exists b, a = dupto k a ++ b.
Proof.
  revert k; induction a as [|op a IH]; intro k; [destruct k; exists []; reflexivity|].
  destruct k; [exists (op :: a); reflexivity|].
  destruct op; simpl.
  - destruct (IH (S k)) as (b & E). exists b. rewrite E at 1. reflexivity.
  - destruct (IH k) as (b & E). exists b. rewrite E at 1. reflexivity.
  - destruct (IH (S k)) as (b & E). exists b. rewrite E at 1. reflexivity.
Qed.
Lemma reg_app a b : reg (a ++ b) = fold_left reg_step b (reg a).
Proof. unfold reg. apply fold_left_app. Qed.
Lemma reg_step_mono f op n v : f n = Some v -> reg_step f op n = Some v.
Proof.
  intro H. destruct op as [[r|] name key| |]; simpl; auto.
  destruct (is_nil name || is_nil key); auto. destruct (beq n name); auto. rewrite H. reflexivity.
Qed.
Lemma reg_mono a b n v : reg a n = Some v -> reg (a ++ b) n = Some v.
Proof.
  rewrite reg_app. generalize (reg a). induction b as [|op b IH]; intros f H; simpl; auto.
  apply IH. apply reg_step_mono. exact H.
Qed.
Lemma reg_dupto k a n v : reg (dupto k a) n = Some v -> reg a n = Some v.
Proof. intro H. destruct (dupto_prefix k a) as (b & E). rewrite E. apply reg_mono. exact H. Qed.
Lemma visible_reg a n v : visible a n = Some v -> reg a n = Some v.
Proof. apply reg_dupto. Qed.
Lemma names_app a b : names_of (a ++ b) = names_of a ++ names_of b.
Proof. apply flat_map_app. Qed.
Lemma reg_name a n v : reg a n = Some v -> In n (names_of a) /\ n <> [] /\ v <> [].
Proof.
  revert v. induction a as [|op a IH] using rev_ind; intros v H; [discriminate|].
  rewrite reg_app in H. simpl in H. rewrite names_app, in_app_iff.
  destruct op as [[r|] name key| |]; simpl in *; try (destruct (IH _ H); auto; fail).
  destruct name as [|c name], key as [|c' key]; simpl in H; try (destruct (IH _ H); auto; fail).
  destruct (beq_spec n (c :: name)) as [->|N]; [|destruct (IH _ H); auto].
  destruct (reg a (c :: name)) eqn:E; [destruct (IH _ eq_refl); injection H as <-; auto|].
  injection H as <-. split; [simpl; auto|]. split; discriminate.
Qed.
Lemma beq_spec' a b : beq a b = true <-> a = b.
Proof. apply beq_eq. Qed.

Section Facts.
  Context {C : Crypto} (OK : CryptoOk C).
  Variables (dl0 : N) (vk sk : bytes) (size : nat).
  Let pol0 := NewPolicies dl0 (vrf_pub vk).
  Notation pinv := (pad_inv Policies_Serialize pol0 sk vk size).

  (** The temporary binding for [name] and [key] under the STR signature [ssig]. *)
  Definition tb_for (ssig name key : bytes) : TemporaryBinding :=
    mkTB (idx_of vk name) key (sign_sign sk (ssig ++ idx_of vk name ++ key)).

  Record dir_inv (d : Directory) (ops : list dir_op) (pops : list (pad_op Policies)) (hist : list (SignedTreeRoot Policies)) : Prop := {
    di_pad : pinv (dr_pad d) pops hist;
    di_upd : updates pops = dupdates ops;
    di_use : dr_useTBs d = true;
    di_pol : dr_pol d = NewPolicies (deadline_after dl0 ops) (vrf_pub vk);
    di_ad : forall k, k <= dupdates ops ->
       ad_after pol0 (upto k pops) = NewPolicies (deadline_after dl0 (dupto k ops)) (vrf_pub vk);
    di_adl : ad_after pol0 pops = ad_after pol0 (upto (dupdates ops) pops);
    di_keys : forall k, In k (keys_of pops) -> In k (names_of ops)
  }.

  Record dir_sem (d : Directory) (ops : list dir_op) (pops : list (pad_op Policies)) : Prop := {
    ds_reg : forall name, option_map b_value (last_put pops name) = reg ops name;
    ds_regk : forall k name, k <= dupdates ops ->
       option_map b_value (last_put (upto k pops) name) = reg (dupto k ops) name;
    ds_tbs : forall name, map_get beq name (dr_tbs d) =
       match visible ops name, reg ops name with
       | None, Some key => Some (tb_for (s_sig (st_body (pd_latest (dr_pad d)))) name key)
       | _, _ => None
       end
  }.

  Lemma spread_incl n ks ks' : incl ks' ks -> vrf_spread n vk ks -> vrf_spread n vk ks'.
  Proof. intros I H a b Ia Ib. apply H; auto. Qed.

  (** *** Lookups in any cached epoch *)
  Lemma dir_lookup d ops pops hist e s k name :
    dir_inv d ops pops hist -> dir_sem d ops pops -> vrf_spread 248 vk (name :: names_of ops) ->
    GetSTR (dr_pad d) e = Some s -> nth_error hist k = Some s -> k <= dupdates ops ->
    exists ap leaf, LookupInEpoch (dr_pad d) name e = Ok (Some ap) /\ ap_leaf ap = Some leaf /\
      ap_lookup ap = idx_of vk name /\ ap_vrf ap = snd (vrf_prove vk name) /\
      match reg (dupto k ops) name with
      | Some key => leaf_matches ap = Ok true /\ ProofType ap = Ok ProofOfInclusion /\ pn_value leaf = Some key /\
           Verify ap name (Some key) (s_hash (st_body s)) = Ok None
      | None => leaf_matches ap = Ok false /\ ProofType ap = Ok ProofOfAbsence /\ pn_value leaf = None /\
           forall n v, Verify ap n v (s_hash (st_body s)) = Ok None
      end.
  Proof.
    intros I S SP G N L. destruct I, S.
    assert (SP' : vrf_spread 248 vk (name :: keys_of pops)).
    { eapply spread_incl; [|exact SP]. intros x [->|Hx]; simpl; auto. }
    destruct (lookup_spec OK _ _ _ _ _ (dr_pad d) pops hist e s k name di_pad0 G N ltac:(lia) SP')
      as (ap & leaf & E & AL & LK & VR & M).
    exists ap, leaf. do 4 (split; [assumption|]).
    assert (PT : forall b, ProofType ap = Ok b ->
       leaf_matches ap = Ok (match b with ProofOfInclusion => true | ProofOfAbsence => false end)).
    { intros b Hb. unfold ProofType in Hb. unfold leaf_matches. rewrite AL in *. injection Hb as <-.
      destruct (beq _ _); reflexivity. }
    specialize (ds_regk0 k name L).
    destruct (last_put (upto k pops) name) as [b|]; simpl in ds_regk0; rewrite <- ds_regk0.
    - destruct M as (_ & M1 & M2 & M3). split; [apply (PT _ M1)|]. auto.
    - destruct M as (M1 & M2 & M3). split; [apply (PT _ M1)|]. auto.
  Qed.

  Lemma lookup_total d ops pops hist e name : dir_inv d ops pops hist ->
    match GetSTR (dr_pad d) e with
    | None => LookupInEpoch (dr_pad d) name e = Ok None
    | Some s => exists ap b, LookupInEpoch (dr_pad d) name e = Ok (Some ap) /\ leaf_matches ap = Ok b
    end.
  Proof.
    intros I. destruct I. destruct (GetSTR (dr_pad d) e) as [s|] eqn:G.
    - destruct (getstr_hist _ _ _ _ _ _ _ _ _ _ di_pad0 G) as (k & N & _).
      pose proof (pi_hist _ _ _ _ _ _ _ _ di_pad0 _ _ N) as SO.
      unfold LookupInEpoch. rewrite G, (pi_vrf _ _ _ _ _ _ _ _ di_pad0).
      destruct (vrf_prove vk name) as [ix pr] eqn:VP.
      assert (LI : length ix = 32) by (pose proof (ok_vrf_len _ OK vk name) as Z; rewrite VP in Z; exact Z).
      destruct (get_inv OK 32 _ _ ix (so_tree _ _ _ _ _ _ _ _ SO) LI) as (ap & leaf & E & AL & _).
      rewrite E. cbn [bind]. do 2 eexists. split; [reflexivity|].
      unfold leaf_matches. cbn [ap_leaf]. rewrite AL. reflexivity.
    - unfold LookupInEpoch. rewrite G. reflexivity.
  Qed.

  Lemma latest_get d : GetSTR (dr_pad d) (latestEpoch d) = Some (pd_latest (dr_pad d)).
  Proof. unfold GetSTR, latestEpoch. rewrite N.leb_refl. reflexivity. Qed.

  Lemma latest_nth d ops pops hist : dir_inv d ops pops hist -> nth_error hist (dupdates ops) = Some (pd_latest (dr_pad d)).
  Proof. intros []. rewrite <- di_upd0. apply di_pad0. Qed.

  Lemma latestEpoch_eq d ops pops hist : dir_inv d ops pops hist -> latestEpoch d = N.of_nat (dupdates ops).
  Proof. intros []. unfold latestEpoch. rewrite <- di_upd0. eapply latest_epoch; eauto. Qed.

  Lemma newtb_eq d ops pops hist name key : dir_inv d ops pops hist ->
    NewTB d name key = tb_for (s_sig (st_body (pd_latest (dr_pad d)))) name key.
  Proof.
    intros []. unfold NewTB, tb_for, Index, PAD_Sign, idx_of.
    rewrite (pi_vrf _ _ _ _ _ _ _ _ di_pad0), (pi_sign _ _ _ _ _ _ _ _ di_pad0). simpl. rewrite app_nil_r. reflexivity.
  Qed.

  (** *** Effect-free steps *)
  Lemma inv_noop d ops pops hist op :
    dir_inv d ops pops hist -> op <> DUpdate -> (forall t, op <> DSetPolicies t) -> dir_inv d (ops ++ [op]) pops hist.
  Proof.
    intros [] N1 N2. assert (U : dupdates (ops ++ [op]) = dupdates ops).
    { rewrite dupdates_app. destruct op; simpl; try lia. congruence. }
    assert (D : forall a, deadline_after dl0 (a ++ [op]) = deadline_after dl0 a).
    { intro a. unfold deadline_after. rewrite fold_left_app. simpl. destruct op; auto. exfalso. eapply N2; reflexivity. }
    constructor; rewrite ?U, ?D; auto.
    - intros k Hk. rewrite dupto_app by auto. auto.
    - intros k Hk. rewrite names_app, in_app_iff. auto.
  Qed.
  Lemma sem_noop d ops pops op :
    dir_sem d ops pops -> op <> DUpdate -> (forall n, reg_step (reg ops) op n = reg ops n) -> dir_sem d (ops ++ [op]) pops.
  Proof.
    intros [] N1 R. assert (U : dupdates (ops ++ [op]) = dupdates ops).
    { rewrite dupdates_app. destruct op; simpl; try lia. congruence. }
    assert (R' : forall n, reg (ops ++ [op]) n = reg ops n) by (intro n; rewrite reg_app; apply R).
    constructor; unfold visible; rewrite ?U.
    - intro. rewrite R'. auto.
    - intros k name Hk. rewrite dupto_app by auto. auto.
    - intro name. rewrite R', dupto_app by auto. apply ds_tbs0.
  Qed.

  (** *** Update and SetPolicies *)
  Lemma update_inv d ops pops hist :
    dir_inv d ops pops hist -> (N.of_nat (S (dupdates ops)) < two64)%N ->
    let d' := Directory_Update d in
    dir_inv d' (ops ++ [DUpdate]) (pops ++ [PUpdate (Some (dr_pol d))]) (hist ++ [pd_latest (dr_pad d')]) /\
    (dir_sem d ops pops -> dir_sem d' (ops ++ [DUpdate]) (pops ++ [PUpdate (Some (dr_pol d))])).
  Proof.
    intros [] B d'. 
    assert (U : dupdates (ops ++ [DUpdate]) = S (dupdates ops)) by (rewrite dupdates_app; simpl; lia).
    assert (U' : updates (pops ++ [PUpdate (Some (dr_pol d))]) = S (updates pops)) by (rewrite updates_app; simpl; lia).
    split.
    - constructor; rewrite ?U.
      + unfold d', Directory_Update. cbn [dr_pad]. apply update_pad_inv; auto. rewrite di_upd0. exact B.
      + rewrite U'. congruence.
      + exact di_use0.
      + cbn [d' Directory_Update dr_pol]. rewrite di_pol0. f_equal. unfold deadline_after. rewrite fold_left_app. reflexivity.
      + intros k Hk. destruct (Nat.le_gt_cases k (dupdates ops)).
        * rewrite upto_app, dupto_app by lia. auto.
        * assert (k = S (dupdates ops)) by lia. subst k.
          rewrite dupto_last. rewrite <- di_upd0, upto_last.
          unfold ad_after, deadline_after. rewrite !fold_left_app. simpl. rewrite di_pol0. reflexivity.
      + rewrite <- di_upd0, upto_last. reflexivity.
      + intros k Hk. rewrite keys_app in Hk. simpl in Hk. rewrite app_nil_r in Hk. rewrite names_app, in_app_iff. auto.
    - intros []. assert (R : forall n, reg (ops ++ [DUpdate]) n = reg ops n) by (intro n; rewrite reg_app; reflexivity).
      constructor; unfold visible; rewrite ?U.
      + intro name. rewrite R, last_put_app. simpl. auto.
      + intros k name Hk. destruct (Nat.le_gt_cases k (dupdates ops)).
        * rewrite upto_app, dupto_app by lia. auto.
        * assert (k = S (dupdates ops)) by lia. subst k.
          rewrite dupto_last. rewrite <- di_upd0, upto_last. rewrite last_put_app. simpl. rewrite R. auto.
      + intro name. rewrite dupto_last, R. destruct (reg ops name); reflexivity.
  Qed.

  Lemma setpol_inv d ops pops hist t :
    dir_inv d ops pops hist ->
    dir_inv (SetPolicies d t) (ops ++ [DSetPolicies t]) pops hist /\
    (dir_sem d ops pops -> dir_sem (SetPolicies d t) (ops ++ [DSetPolicies t]) pops).
  Proof.
    intros I. assert (U : dupdates (ops ++ [DSetPolicies t]) = dupdates ops) by (rewrite dupdates_app; simpl; lia).
    split.
    - destruct I. constructor; rewrite ?U; auto.
      + cbn [SetPolicies dr_pol]. rewrite di_pol0. unfold deadline_after. rewrite fold_left_app. reflexivity.
      + intros k Hk. rewrite dupto_app by auto. auto.
      + intros k Hk. rewrite names_app, in_app_iff. auto.
    - intro S. assert (dir_sem d (ops ++ [DSetPolicies t]) pops) by (apply sem_noop; auto; discriminate).
      destruct H. constructor; auto.
  Qed.

  (** *** Register *)
  Lemma register_inv d ops pops hist r name key :
    dir_inv d ops pops hist ->
    exists d' resp pops', Register d r name key = Ok (d', resp) /\
      dir_inv d' (ops ++ [DRegister r name key]) pops' hist /\
      pd_latest (dr_pad d') = pd_latest (dr_pad d) /\
      (dir_sem d ops pops -> vrf_spread 248 vk (names_of (ops ++ [DRegister r name key])) ->
       dir_sem d' (ops ++ [DRegister r name key]) pops' /\
       if is_nil name || is_nil key then d' = d /\ resp = NewErrorResponse ErrMalformedMessage
       else exists ap leaf, ap_leaf ap = Some leaf /\ LookupInEpoch (dr_pad d) name (latestEpoch d) = Ok (Some ap) /\
         match visible ops name with
         | Some k => ProofType ap = Ok ProofOfInclusion /\ pn_value leaf = Some k /\ d' = d /\
              resp = NewRegistrationProof ap (LatestSTR d) None ReqNameExisted
         | None => ProofType ap = Ok ProofOfAbsence /\
              match reg ops name with
              | Some k => d' = d /\ resp = NewRegistrationProof ap (LatestSTR d)
                    (Some (tb_for (s_sig (st_body (pd_latest (dr_pad d)))) name k)) ReqNameExisted
              | None => match r with
                  | None => d' = d /\ resp = NewErrorResponse ErrDirectory
                  | Some _ => resp = NewRegistrationProof ap (LatestSTR d)
                    (Some (tb_for (s_sig (st_body (pd_latest (dr_pad d)))) name key)) ReqSuccess
                  end
              end
         end).
  Proof.
    intros I. unfold Register. destruct (is_nil name || is_nil key) eqn:NIL.
    { exists d, (NewErrorResponse ErrMalformedMessage), pops. split; [reflexivity|].
      split; [apply inv_noop; auto; discriminate|]. split; [reflexivity|]. intros S SP. split; [|auto].
      apply sem_noop; auto; [discriminate|]. intro n. simpl. rewrite NIL. destruct r; reflexivity. }
    unfold Lookup. fold (latestEpoch d).
    pose proof (lookup_total d ops pops hist (latestEpoch d) name I) as LT. rewrite latest_get in LT.
    destruct LT as (ap & found & EL & LM). rewrite EL. cbn [bind]. rewrite LM. cbn [bind].
    (* what the lookup says under the semantic invariant *)
    assert (SEM : dir_sem d ops pops -> vrf_spread 248 vk (names_of (ops ++ [DRegister r name key])) ->
       exists leaf, ap_leaf ap = Some leaf /\
       match visible ops name with
       | Some k => found = true /\ ProofType ap = Ok ProofOfInclusion /\ pn_value leaf = Some k
       | None => found = false /\ ProofType ap = Ok ProofOfAbsence
       end).
    { intros S SP.
      destruct (dir_lookup d ops pops hist (latestEpoch d) (pd_latest (dr_pad d)) (dupdates ops) name I S) as
        (ap' & leaf & E & AL & _ & _ & M); auto.
      - eapply spread_incl; [|exact SP]. intros x [->|Hx]; rewrite names_app, in_app_iff; simpl; auto.
      - apply latest_get.
      - eapply latest_nth; eauto.
      - rewrite EL in E. injection E as <-. exists leaf. split; auto. unfold visible.
        destruct (reg (dupto (dupdates ops) ops) name).
        + destruct M as (M0 & M1 & M2 & _). rewrite LM in M0. injection M0 as ->. auto.
        + destruct M as (M0 & M1 & _). rewrite LM in M0. injection M0 as ->. auto. }
    destruct found.
    { (* present in the snapshot *)
      exists d, (NewRegistrationProof ap (LatestSTR d) None ReqNameExisted), pops. split; [reflexivity|].
      split; [apply inv_noop; auto; discriminate|]. split; [reflexivity|].
      intros S SP. destruct (SEM S SP) as (leaf & AL & M).
      destruct (visible ops name) as [k|] eqn:V; [|destruct M; discriminate].
      destruct M as (_ & M1 & M2). split.
      - apply sem_noop; auto; [discriminate|]. intro n. simpl. rewrite NIL. destruct r; auto.
        destruct (beq_spec n name) as [->|]; auto. apply visible_reg in V. rewrite V. reflexivity.
      - exists ap, leaf. auto 10. }
    rewrite (di_use _ _ _ _ I).
    destruct (map_get beq name (dr_tbs d)) as [tb|] eqn:TB.
    { exists d, (NewRegistrationProof ap (LatestSTR d) (Some tb) ReqNameExisted), pops. split; [reflexivity|].
      split; [apply inv_noop; auto; discriminate|]. split; [reflexivity|].
      intros S SP. destruct (SEM S SP) as (leaf & AL & M). pose proof (ds_tbs _ _ _ S name) as T. rewrite TB in T.
      destruct (visible ops name) as [k|] eqn:V; [discriminate|].
      destruct (reg ops name) as [k|] eqn:R; [|discriminate]. injection T as ->. destruct M as (_ & M). split.
      - apply sem_noop; auto; [discriminate|]. intro n. simpl. rewrite NIL. destruct r; auto.
        destruct (beq_spec n name) as [->|]; auto. rewrite R. reflexivity.
      - exists ap, leaf. auto 10. }
    (* a new registration *)
    destruct (set_pad_inv OK Policies_Serialize pol0 sk vk size (dr_pad d) pops hist r name key (di_pad _ _ _ _ I))
      as (p' & ES & IP & _ & ELs & _ & NR).
    cbn [pad_step] in ES. destruct (PAD_Set (dr_pad d) r name key) as [[q|]|] eqn:PS; cbn [bind] in ES; try discriminate.
    - injection ES as ->. cbn [bind].
      assert (exists r', r = Some r') as (r' & ->).
      { destruct r as [r'|]; [eauto|]. exfalso. clear -PS. unfold PAD_Set, Set_ in PS. simpl in PS. discriminate. }
      exists (mkDirectory p' true (map_set beq name (NewTB d name key) (dr_tbs d)) (dr_pol d)).
      eexists. exists (pops ++ [PSet (Some r') name key]). split; [reflexivity|].
      assert (U : dupdates (ops ++ [DRegister (Some r') name key]) = dupdates ops) by (rewrite dupdates_app; simpl; lia).
      split; [|split].
      + destruct I. constructor; cbn [dr_pad dr_useTBs dr_pol]; rewrite ?U; auto.
        * rewrite updates_app. simpl. lia.
        * rewrite di_pol0. unfold deadline_after. rewrite fold_left_app. reflexivity.
        * intros k Hk. rewrite upto_app, dupto_app by lia. auto.
        * rewrite upto_app by lia. rewrite <- di_adl0. unfold ad_after. rewrite fold_left_app. reflexivity.
        * intros k Hk. rewrite keys_app, in_app_iff in Hk. rewrite names_app, in_app_iff. simpl in *.
          destruct Hk as [Hk|Hk]; auto.
      + exact ELs.
      + intros S SP. destruct (SEM S SP) as (leaf & AL & M). pose proof (ds_tbs _ _ _ S name) as T. rewrite TB in T.
        destruct (visible ops name) as [k|] eqn:V; [destruct M; discriminate|].
        destruct (reg ops name) as [k|] eqn:R; [discriminate|].
        assert (R' : forall n, reg (ops ++ [DRegister (Some r') name key]) n = if beq n name then Some key else reg ops n).
        { intro n. rewrite reg_app. simpl. rewrite NIL. destruct (beq_spec n name) as [->|]; auto. rewrite R. reflexivity. }
        split.
        * constructor.
          -- intro n. rewrite R', last_put_app. simpl. destruct (beq n name); [reflexivity|]. apply S.
          -- rewrite U. intros k n Hk. rewrite dupto_app by auto. rewrite upto_app by (rewrite (di_upd _ _ _ _ I); auto). apply S. auto.
          -- intro n. cbn [dr_tbs dr_pad]. unfold visible. rewrite U, R', dupto_app by auto.
             fold (visible ops n). rewrite ELs.
             destruct (beq_spec n name) as [->|Ne].
             ++ rewrite (map_get_set_same _ beq_spec'), V. rewrite (newtb_eq _ _ _ _ _ _ I). reflexivity.
             ++ rewrite (map_get_set_other _ beq_spec') by auto. apply S.
        * exists ap, leaf. destruct M as (_ & M). split; auto. split; auto. split; auto.
          rewrite (newtb_eq _ _ _ _ _ _ I). unfold LatestSTR. cbn [dr_pad]. rewrite ELs. reflexivity.
    - assert (r = None) as ->.
      { destruct r as [r'|]; auto. exfalso. clear -PS. unfold PAD_Set, Set_ in PS. simpl in PS.
        destruct (insertNode _ _ _); simpl in PS; discriminate. }
      exists d, (NewErrorResponse ErrDirectory), pops. split; [reflexivity|].
      split; [apply inv_noop; auto; discriminate|]. split; [reflexivity|].
      intros S SP. split; [apply sem_noop; auto; discriminate|].
      destruct (SEM S SP) as (leaf & AL & M). pose proof (ds_tbs _ _ _ S name) as T. rewrite TB in T.
      destruct (visible ops name) as [k|] eqn:V; [destruct M; discriminate|].
      destruct (reg ops name) as [k|] eqn:R; [discriminate|].
      exists ap, leaf. destruct M. auto 10.
  Qed.

  Lemma step_dir_inv d ops pops hist op :
    dir_inv d ops pops hist -> (N.of_nat (dupdates (ops ++ [op])) < two64)%N ->
    exists d' pops' hist', dir_step d op = Ok d' /\ dir_inv d' (ops ++ [op]) pops' hist' /\
      hist' = hist ++ (match op with DUpdate => [pd_latest (dr_pad d')] | _ => [] end) /\
      (dir_sem d ops pops -> vrf_spread 248 vk (names_of (ops ++ [op])) -> dir_sem d' (ops ++ [op]) pops').
  Proof.
    intros I B. destruct op as [r name key| |t].
    - destruct (register_inv d ops pops hist r name key I) as (d' & resp & pops' & E & I' & _ & S).
      exists d', pops', hist. cbn [dir_step]. rewrite E. cbn [bind]. split; auto. split; auto.
      split; [rewrite app_nil_r; reflexivity|]. intros. apply S; auto.
    - rewrite dupdates_app in B. simpl in B. replace (dupdates ops + 1) with (S (dupdates ops)) in B by lia.
      destruct (update_inv d ops pops hist I B) as (I' & S). do 3 eexists. split; [reflexivity|]. split; [exact I'|].
      split; [reflexivity|auto].
    - destruct (setpol_inv d ops pops hist t I) as (I' & S). do 3 eexists. split; [reflexivity|]. split; [exact I'|].
      split; [rewrite app_nil_r; reflexivity|auto].
  Qed.

  (** The STRs issued by a run. *)
  Fixpoint dir_hist (d : Directory) (ops : list dir_op) : list (SignedTreeRoot Policies) :=
    match ops with
    | [] => []
    | op :: ops' =>
        match dir_step d op with
        | Panic => []
        | Ok d' => (match op with DUpdate => [pd_latest (dr_pad d')] | _ => [] end) ++ dir_hist d' ops'
        end
    end.
  Lemma dir_hist_app a : forall b d d', dir_run d a = Ok d' -> dir_hist d (a ++ b) = dir_hist d a ++ dir_hist d' b.
  Proof.
    induction a as [|op a IH]; intros b d d' R; cbn [dir_run dir_hist app] in *.
    - injection R as <-. reflexivity.
    - destruct (dir_step d op) as [d1|]; cbn [bind] in R; [|discriminate].
      rewrite (IH b d1 d' R). apply app_assoc.
  Qed.

  Lemma run_dir_inv ops' : forall d ops pops hist,
    dir_inv d ops pops hist -> (N.of_nat (dupdates (ops ++ ops')) < two64)%N ->
    exists d' pops', dir_run d ops' = Ok d' /\ dir_inv d' (ops ++ ops') pops' (hist ++ dir_hist d ops') /\
      (dir_sem d ops pops -> vrf_spread 248 vk (names_of (ops ++ ops')) -> dir_sem d' (ops ++ ops') pops').
  Proof.
    induction ops' as [|op ops' IH]; intros d ops pops hist I B.
    - exists d, pops. cbn [dir_hist]. rewrite !app_nil_r. auto.
    - assert (EQ : ops ++ op :: ops' = (ops ++ [op]) ++ ops') by (rewrite <- app_assoc; reflexivity).
      rewrite EQ in *.
      assert (B1 : (N.of_nat (dupdates (ops ++ [op])) < two64)%N) by (rewrite dupdates_app in B; lia).
      destruct (step_dir_inv d ops pops hist op I B1) as (d1 & p1 & h1 & E & I1 & -> & S1).
      destruct (IH d1 _ p1 _ I1 B) as (d' & p' & E' & I' & S').
      exists d', p'. cbn [dir_run dir_hist]. rewrite E. cbn [bind]. split; auto. rewrite app_assoc. split; auto.
      intros S SP. apply S'; auto. apply S1; auto.
      eapply spread_incl; [|exact SP]. intros x Hx. rewrite names_app, in_app_iff. auto.
  Qed.

  Lemma new_dir_inv r1 r2 d : Directory_New dl0 vk sk size true r1 r2 = Ok d ->
    dir_inv d [] [] [pd_latest (dr_pad d)] /\ dir_sem d [] [].
  Proof.
    unfold Directory_New. fold pol0.
    destruct (NewPAD Policies_Serialize pol0 sk vk size r1 r2) as [[p|]|] eqn:N; cbn [bind]; try discriminate.
    intro H. injection H as <-. split.
    - constructor; cbn [dr_pad dr_useTBs dr_pol dr_tbs]; auto.
      + eapply new_pad_inv; eauto.
      + intros k Hk. simpl in Hk. assert (k = 0) by lia. subst. reflexivity.
    - constructor; simpl; auto.
      + intros k name Hk. assert (k = 0) by lia. subst. reflexivity.
  Qed.

  Lemma dir_run_app a : forall b d, dir_run d (a ++ b) = do d' <- dir_run d a; dir_run d' b.
  Proof.
    induction a as [|op a IH]; intros b d; [reflexivity|]. cbn [app dir_run].
    destruct (dir_step d op); cbn [bind]; auto.
  Qed.

  Lemma built_dir_inv r1 r2 ops d : dir_built dl0 vk sk size r1 r2 ops d -> (N.of_nat (dupdates ops) < two64)%N ->
    exists pops hist, dir_inv d ops pops hist /\ (vrf_spread 248 vk (names_of ops) -> dir_sem d ops pops) /\
      forall k, k <= dupdates ops -> exists s, nth_error hist k = Some s /\
        published dl0 vk sk size r1 r2 ops k (NewDirSTR s).
  Proof.
    intros (d0 & N & R) B. destruct (new_dir_inv r1 r2 d0 N) as (I0 & S0).
    destruct (run_dir_inv ops d0 [] [] _ I0 B) as (d' & pops & R' & I & S).
    rewrite R in R'. injection R' as <-. exists pops, ([pd_latest (dr_pad d0)] ++ dir_hist d0 ops). split; auto. split; auto.
    intros k Hk. cbn [app] in *.
    destruct (dupto_prefix k ops) as (b & EQ).
    assert (DU : dupdates (dupto k ops) = k).
    { clear -Hk. revert k Hk. induction ops as [|op ops IH]; intros k Hk; simpl in Hk.
      - assert (k = 0) by lia. subst. reflexivity.
      - destruct k; [reflexivity|]. destruct op; simpl; try apply IH; try lia. f_equal. apply IH. lia. }
    assert (B1 : (N.of_nat (dupdates ([] ++ dupto k ops)) < two64)%N) by (cbn [app]; rewrite DU; lia).
    destruct (run_dir_inv (dupto k ops) d0 [] [] _ I0 B1) as (dk & pk & Rk & Ik & _). cbn [app] in Ik.
    exists (pd_latest (dr_pad dk)). split; [|exists dk; split; [exists d0; auto|reflexivity]].
    pose proof (latest_nth _ _ _ _ Ik) as Z. rewrite DU in Z.
    rewrite EQ, (dir_hist_app _ _ _ _ Rk), app_comm_cons, nth_error_app1; auto. eapply nth_error_lt; eauto.
  Qed.

  Lemma dir_history_runs r1 r2 ops : (N.of_nat (dupdates ops) < two64)%N ->
    exists d, dir_built dl0 vk sk size (Some r1) (Some r2) ops d.
  Proof.
    intro B. destruct (Directory_New dl0 vk sk size true (Some r1) (Some r2)) as [d0|] eqn:N; [|cbv in N; discriminate N].
    destruct (new_dir_inv _ _ d0 N) as (I0 & _).
    destruct (run_dir_inv ops d0 [] [] _ I0 B) as (d' & pops & R' & I & S).
    exists d', d0. auto.
  Qed.
End Facts.
