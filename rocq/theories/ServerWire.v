(** Every answer a directory gives can travel: numbers in range, hashes of 32
    bytes, text in UTF-8. *)
From Coq Require Import List NArith ZArith Lia Bool Arith.
From Verif Require Import Base Utils Crypto Tree TreeFacts TreeSpec TreeHist PathFacts SoundFacts TreeMain
  STR PAD PADSpec PADFacts PADMain Protocol Directory DirSpec DirFacts DirMain Json Wire.
Import ListNotations.

(** All announced deadlines are uint64 values. *)
Definition deadlines_ok (dl0 : N) (ops : list dir_op) : Prop :=
  uint64 dl0 /\ forall t, In (DSetPolicies t) ops -> uint64 t.

Lemma deadline_after_ok dl0 ops : deadlines_ok dl0 ops -> uint64 (deadline_after dl0 ops).
Proof.
  intros [A B]. unfold deadline_after. revert dl0 A.
  induction ops as [|op ops IH]; intros dl0 A; cbn [fold_left]; auto.
  apply IH; [intros; apply B; right; auto|]. destruct op; auto. apply B. left; auto.
Qed.
Lemma dupto_in k ops x : In x (dupto k ops) -> In x ops.
Proof. destruct (dupto_prefix k ops) as [b E]. intro H. rewrite E. apply in_or_app. auto. Qed.
Lemma mapM_in {A B} (f : A -> result B) l l' b : mapM f l = Ok l' -> In b l' -> exists a, f a = Ok b.
Proof.
  revert l'; induction l as [|a l IH]; intros l'; cbn [mapM].
  - intros H. injection H as <-. intros [].
  - destruct (f a) as [x|] eqn:E; cbn [bind]; [|intro H; discriminate H].
    destruct (mapM f l) as [xs|]; cbn [bind]; intro H; [|discriminate H]. injection H as <-.
    intros [<-|K]; eauto.
Qed.

Section W.
  Context {C : Crypto} (OK : CryptoOk C).
  Variables (dl0 : N) (vk sk : bytes) (size : nat).
  Notation dinv := (dir_inv dl0 vk sk size).

  Lemma lookup_wf d ops pops hist e name ap : dinv d ops pops hist ->
    LookupInEpoch (dr_pad d) name e = Ok (Some ap) -> wf_authpath ap.
  Proof.
    intros I. destruct I. unfold LookupInEpoch. destruct (GetSTR (dr_pad d) e) as [s|] eqn:G; [|intro H; discriminate H].
    destruct (getstr_hist _ _ _ _ _ _ _ _ _ _ di_pad G) as (k & N & _).
    pose proof (pi_hist _ _ _ _ _ _ _ _ di_pad _ _ N) as SO.
    rewrite (pi_vrf _ _ _ _ _ _ _ _ di_pad). destruct (vrf_prove vk name) as [ix pr] eqn:VP.
    assert (LI : length ix = 32) by (pose proof (ok_vrf_len _ OK vk name) as Z; rewrite VP in Z; exact Z).
    destruct (get_inv OK 32 _ _ ix (so_tree _ _ _ _ _ _ _ _ SO) LI)
      as (ap' & leaf & E & AL & AN & LK & Lp & Fp & Lv & _).
    rewrite E. cbn [bind]. intro H. injection H as <-. unfold wf_authpath. cbn [ap_pruned ap_leaf].
    rewrite AL. split; [apply Forall_forall; exact Fp|]. unfold wf_proofnode.
    assert (pn_level leaf <= 256) by lia. lia.
  Qed.

  Lemma str_wf d ops pops hist e s : dinv d ops pops hist -> (N.of_nat (dupdates ops) < two64)%N -> deadlines_ok dl0 ops ->
    GetSTR (dr_pad d) e = Some s -> wf_dirstr (NewDirSTR s).
  Proof.
    intros I F D G. destruct (getstr_hist _ _ _ _ _ _ _ _ _ _ (di_pad _ _ _ _ _ _ _ _ I) G) as (k & N & K).
    destruct (hist_str OK dl0 vk sk size d ops pops hist k s I N) as (E & P & _ & PE).
    pose proof (nth_error_lt _ _ _ N) as L.
    rewrite (pi_len _ _ _ _ _ _ _ _ (di_pad _ _ _ _ _ _ _ _ I)), (di_upd _ _ _ _ _ _ _ _ I) in L.
    unfold wf_dirstr. rewrite P. unfold epoch_of in E. cbn [NewDirSTR d_body option_map] in E |- *.
    injection E as E. unfold uint64, two64 in *. split; [split; [rewrite E|rewrite PE]; lia|].
    unfold wf_policies, NewPolicies. cbn [pol_version pol_hashid pol_deadline].
    split; [|split].
    - vm_compute. repeat constructor.
    - vm_compute. repeat constructor.
    - apply deadline_after_ok. destruct D as [D1 D2]. split; auto. intros t H. apply D2. eapply dupto_in; eauto.
  Qed.

  (** What is needed for a response to request type [t] to come out as it went
      in. *)
  Definition travels (t : Z) (resp : Response) : Prop :=
    UnmarshalResponse t (Some (MarshalResponse resp)) = Ok resp.

  Lemma proof_travels t e aps strs tb :
    t = RegistrationType \/ t = KeyLookupType \/ t = KeyLookupInEpochType \/ t = MonitoringType ->
    int64 e -> (forall a, In a aps -> wf_authpath a) -> (forall s, In s strs -> wf_dirstr s) ->
    travels t (mkResp e (Some (DProof (Some (mkDP (map Some aps) (map Some strs) tb))))).
  Proof.
    intros T E A B. eapply response_round_trip; [exact E|reflexivity| |exact T].
    cbn [wf_df dp_ap dp_str]. split; intros x H; apply in_map_iff in H as (y & <- & H); cbn [wf_opt]; auto.
  Qed.
  Lemma err_travels t e : is_error e = true -> travels t (NewErrorResponse e).
  Proof. apply error_round_trip. Qed.

  Ltac i64 := unfold int64; split; [discriminate|reflexivity].
  Ltac one := let H := fresh in intros ? [H|H]; [subst; assumption|destruct H].

  Section D.
    Variables (d : Directory) (ops : list dir_op) (pops : list (pad_op Policies)) (hist : list (SignedTreeRoot Policies)).
    Hypothesis I : dinv d ops pops hist.
    Hypothesis F : (N.of_nat (dupdates ops) < two64)%N.
    Hypothesis D : deadlines_ok dl0 ops.

    Lemma latest_wf : wf_dirstr (LatestSTR d).
    Proof. eapply str_wf; eauto. apply latest_get. Qed.

    Lemma register_travels r name key d' resp : Register d r name key = Ok (d', resp) -> travels RegistrationType resp.
    Proof.
      pose proof latest_wf as L. unfold Register, Lookup.
      destruct (is_nil name || is_nil key). { intro H; injection H as <- <-. apply err_travels; reflexivity. }
      destruct (LookupInEpoch (dr_pad d) name _) as [[ap|]|] eqn:E; cbn [bind].
      2:{ intro H; injection H as <- <-. apply err_travels; reflexivity. }
      2:{ intro H; discriminate H. }
      pose proof (lookup_wf _ _ _ _ _ _ _ I E) as W.
      destruct (leaf_matches ap) as [[]|]; cbn [bind]; [| |intro H; discriminate H].
      { intro H; injection H as <- <-. apply (proof_travels _ _ [ap] [LatestSTR d]); [tauto|i64|one|one]. }
      destruct (if dr_useTBs d then map_get beq name (dr_tbs d) else None).
      { intro H; injection H as <- <-. apply (proof_travels _ _ [ap] [LatestSTR d]); [tauto|i64|one|one]. }
      destruct (PAD_Set (dr_pad d) r name key) as [[pad|]|] eqn:PS; cbn [bind]; [| |intro H; discriminate H].
      2:{ intro H; injection H as <- <-. apply err_travels; reflexivity. }
      intro H; injection H as <- <-.
      assert (X : pd_latest pad = pd_latest (dr_pad d)).
      { unfold PAD_Set in PS. destruct (Set_ _ _ _ _ _) as [[t|]|]; cbn [bind option_map] in PS; [|discriminate PS|discriminate PS].
        injection PS as <-. reflexivity. }
      unfold LatestSTR at 1. cbn [dr_pad]. rewrite X. fold (LatestSTR d).
      apply (proof_travels _ _ [ap] [LatestSTR d]); [tauto|i64|one|one].
    Qed.

    Lemma keylookup_travels name resp : KeyLookup d name = Ok resp -> travels KeyLookupType resp.
    Proof.
      pose proof latest_wf as L. unfold KeyLookup, Lookup.
      destruct (is_nil name). { intro H; injection H as <-. apply err_travels; reflexivity. }
      destruct (LookupInEpoch (dr_pad d) name _) as [[ap|]|] eqn:E; cbn [bind].
      2:{ intro H; injection H as <-. apply err_travels; reflexivity. }
      2:{ intro H; discriminate H. }
      pose proof (lookup_wf _ _ _ _ _ _ _ I E) as W.
      destruct (leaf_matches ap) as [[]|]; cbn [bind]; [| |intro H; discriminate H].
      { intro H; injection H as <-. apply (proof_travels _ _ [ap] [LatestSTR d]); [tauto|i64|one|one]. }
      destruct (if dr_useTBs d then map_get beq name (dr_tbs d) else None);
        intro H; injection H as <-; apply (proof_travels _ _ [ap] [LatestSTR d]); try tauto; try i64; one.
    Qed.

    Lemma strs_wf eps strs : mapM (fun ep => NewDirSTR' (GetSTR (dr_pad d) ep)) eps = Ok strs ->
      forall s, In s strs -> wf_dirstr s.
    Proof.
      intros M s H. destruct (mapM_in _ _ _ _ M H) as (ep & E).
      destruct (GetSTR (dr_pad d) ep) as [x|] eqn:G; [|discriminate E]. cbn [NewDirSTR'] in E. injection E as <-.
      eapply str_wf; eauto.
    Qed.

    Lemma inepoch_travels name e resp : KeyLookupInEpoch d name e = Ok resp -> travels KeyLookupInEpochType resp.
    Proof.
      unfold KeyLookupInEpoch. destruct (is_nil name || N.ltb _ e).
      { intro H; injection H as <-. apply err_travels; reflexivity. }
      destruct (LookupInEpoch (dr_pad d) name e) as [[ap|]|] eqn:E; cbn [bind].
      2:{ intro H; injection H as <-. apply err_travels; reflexivity. }
      2:{ intro H; discriminate H. }
      pose proof (lookup_wf _ _ _ _ _ _ _ I E) as W.
      destruct (epochs e (latestEpoch d)) as [eps|]; cbn [bind]; [|intro H; discriminate H].
      destruct (mapM _ eps) as [strs|] eqn:M; cbn [bind]; [|intro H; discriminate H].
      pose proof (strs_wf _ _ M) as S.
      destruct (leaf_matches ap) as [[]|]; cbn [bind]; intro H; [| |discriminate H]; injection H as <-;
        apply (proof_travels _ _ [ap] strs); auto; try i64; one.
    Qed.

    Lemma monitor_wf name eps : forall aps strs, monitor_loop d name eps = Ok (Some (aps, strs)) ->
      (forall a, In a aps -> wf_authpath a) /\ (forall s, In s strs -> wf_dirstr s).
    Proof.
      induction eps as [|ep eps IH]; intros aps strs; cbn [monitor_loop].
      { intro H; injection H as <- <-. split; intros ? []. }
      destruct (LookupInEpoch (dr_pad d) name ep) as [[ap|]|] eqn:E; cbn [bind];
        [|intro H; discriminate H|intro H; discriminate H].
      destruct (GetSTR (dr_pad d) ep) as [x|] eqn:G; cbn [NewDirSTR' bind]; [|intro H; discriminate H].
      destruct (monitor_loop d name eps) as [[[a s]|]|]; cbn [bind option_map];
        [|intro H; discriminate H|intro H; discriminate H].
      intro H; injection H as <- <-. cbn [fst snd]. destruct (IH _ _ eq_refl) as [A B].
      split; intros y [<-|H]; auto; [eapply lookup_wf; eauto|eapply str_wf; eauto].
    Qed.

    Lemma monitor_travels name s e resp : Monitor d name s e = Ok resp -> travels MonitoringType resp.
    Proof.
      unfold Monitor. destruct (is_nil name || _ || _).
      { intro H; injection H as <-. apply err_travels; reflexivity. }
      destruct (epochs s _) as [eps|]; cbn [bind]; [|intro H; discriminate H].
      destruct (monitor_loop d name eps) as [[[aps strs]|]|] eqn:M; cbn [bind]; [| |intro H; discriminate H].
      2:{ intro H; injection H as <-. apply err_travels; reflexivity. }
      intro H; injection H as <-. destruct (monitor_wf _ _ _ _ M) as [A B].
      apply (proof_travels _ _ aps strs); auto; i64.
    Qed.
  End D.
End W.
