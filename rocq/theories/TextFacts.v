(** How large the answers of a directory are as texts. *)
From Coq Require Import List NArith ZArith Lia Bool Arith.
From Verif Require Import Base Utils Crypto Tree TreeFacts TreeSpec TreeHist PathFacts SoundFacts TreeMain
  STR PAD PADSpec PADFacts PADMain Protocol Directory DirSpec DirFacts DirMain Json Wire ServerWire JsonText Text.
Import ListNotations.
Local Open Scope nat_scope.
Notation length := List.length.

Section S.
  Context {C : Crypto} (OK : CryptoOk C).
  Variables (dl0 : N) (vk sk : bytes) (size : nat).
  Notation dinv := (dir_inv dl0 vk sk size).

  Lemma salt_len ops : forall i b, last_set ops i = Some b -> length (b_salt b) = 32.
  Proof.
    unfold last_set, last_set_from.
    assert (G : forall f, (forall i b, f i = Some b -> length (b_salt b) = 32) ->
                forall i b, fold_left last_set_step ops f i = Some b -> length (b_salt b) = 32).
    { induction ops as [|op ops IH]; intros f F; cbn [fold_left]; [exact F|]. apply IH.
      intros i b. destruct op as [[r|] idx k v|]; cbn [last_set_step]; try apply F.
      destruct (beq i idx); [|apply F]. intro H. injection H as <-. cbn [b_salt]. apply ok_shake_len. exact OK. }
    apply G. intros i b H. discriminate H.
  Qed.

  (** A path out of any snapshot. *)
  Lemma lookup_le d ops pops hist e name ap : dinv d ops pops hist ->
    LookupInEpoch (dr_pad d) name e = Ok (Some ap) -> (forall m, length (snd (vrf_prove vk m)) <= 96) ->
    length (ap_nonce ap) = 32 /\ length (ap_lookup ap) = 32 /\
    exists leaf, ap_leaf ap = Some leaf /\
    forall dep k, length (ap_pruned ap) <= dep -> match pn_value leaf with Some v => length v <= k | None => True end -> path_le dep k ap.
  Proof.
    intros I E VL. pose proof (lookup_wf OK _ _ _ _ _ _ _ _ _ _ _ I E) as W. destruct I. revert E. unfold LookupInEpoch.
    destruct (GetSTR (dr_pad d) e) as [s|] eqn:G; [|intro H; discriminate H].
    destruct (getstr_hist _ _ _ _ _ _ _ _ _ _ di_pad G) as (k0 & N & _).
    pose proof (pi_hist _ _ _ _ _ _ _ _ di_pad _ _ N) as SO.
    rewrite (pi_vrf _ _ _ _ _ _ _ _ di_pad). specialize (VL name).
    assert (LI : length (fst (vrf_prove vk name)) = 32) by (apply ok_vrf_len; exact OK).
    destruct (vrf_prove vk name) as [ix pr] eqn:VP. cbn [fst snd] in *.
    pose proof (so_tree _ _ _ _ _ _ _ _ SO) as TI.
    destruct (get_inv OK 32 _ _ ix TI LI)
      as (ap' & leaf & E & AL & AN & LK & Lp & Fp & Lv & _ & Leaf & _).
    rewrite E. cbn [bind]. intro H. injection H as <-. cbn [ap_nonce ap_lookup ap_leaf ap_pruned ap_vrf] in *.
    assert (LN : length (ap_nonce ap') = 32).
    { rewrite AN, (so_nonce _ _ _ _ _ _ _ _ SO). apply (pi_nonce _ _ _ _ _ _ _ _ di_pad). }
    split; [exact LN|]. split; [rewrite LK; exact LI|]. exists leaf. split; [exact AL|].
    intros dep k D V. unfold path_le. cbn [ap_nonce ap_lookup ap_leaf ap_pruned ap_vrf].
    split; [lia|]. split; [apply Forall_forall; exact Fp|]. split; [exact D|]. split; [rewrite LK; lia|]. split; [exact VL|].
    rewrite AL. unfold node_le. split; [lia|].
    assert (CL : forall b, length (c_value (commit_of b)) = 32) by (intro b; apply ok_shake_len; exact OK).
    destruct (last_set (tops vk (upto k0 pops)) ix) as [b|] eqn:B.
    - rewrite Leaf in V |- *. cbn [pn_index pn_value pn_com] in *. split; [lia|]. split; [exact V|].
      rewrite CL. split; [|lia]. cbn [commit_of c_salt]. rewrite (salt_len _ _ _ B). lia.
    - destruct Leaf as (NV & [(_ & NC & IX & _)|(_ & _ & b & Fb & NC)]); rewrite NV, NC.
      + split; [|tauto]. rewrite IX. apply ToBytes_len_le. rewrite firstn_length, ToBits_length. lia.
      + split; [|split; [tauto|]].
        * rewrite (tree_inv_len _ _ _ _ _ TI Fb). lia.
        * cbn [c_salt c_value]. rewrite CL. cbn [length]. lia.
  Qed.

  Lemma str_parts d ops pops hist e s : dinv d ops pops hist -> GetSTR (dr_pad d) e = Some s ->
    exists dl, st_ad s = NewPolicies dl (vrf_pub vk) /\
    length (s_hash (st_body s)) = 32 /\ length (s_sig (st_body s)) = 64 /\ length (vrf_pub vk) = 32.
  Proof.
    intros I G. destruct (getstr_hist _ _ _ _ _ _ _ _ _ _ (di_pad _ _ _ _ _ _ _ _ I) G) as (k & N & K).
    destruct (hist_str OK dl0 vk sk size d ops pops hist k s I N) as (E & P & _ & PE).
    pose proof (pi_hist _ _ _ _ _ _ _ _ (di_pad _ _ _ _ _ _ _ _ I) _ _ N) as SO.
    cbn [NewDirSTR d_pol] in P. injection P as P. eexists. split; [exact P|].
    split; [|split].
    - rewrite (so_body _ _ _ _ _ _ _ _ SO), (so_hash _ _ _ _ _ _ _ _ SO). apply fresh_length. intro. apply ok_shake_len. exact OK.
    - rewrite (so_sig _ _ _ _ _ _ _ _ SO). apply ok_sign_len. exact OK.
    - apply ok_vrf_pub_len. exact OK.
  Qed.

  (** Sizes kept by every call: the previous hash of the latest root and the
      temporary bindings. *)
  Definition sizes_ok (d : Directory) : Prop :=
    length (s_phash (st_body (pd_latest (dr_pad d)))) = 32 /\
    forall n tb, map_get beq n (dr_tbs d) = Some tb -> length (tb_index tb) = 32 /\ length (tb_sig tb) = 64.
  Lemma newtb_len d n k : length (tb_index (NewTB d n k)) = 32 /\ length (tb_sig (NewTB d n k)) = 64.
  Proof. unfold NewTB, Index, PAD_Sign. cbn [tb_index tb_sig]. split; [apply ok_vrf_len|apply ok_sign_len]; exact OK. Qed.
  Lemma register_sizes d r n k d' resp : sizes_ok d -> Register d r n k = Ok (d', resp) -> sizes_ok d'.
  Proof.
    intros S. unfold Register. destruct (is_nil n || is_nil k). { intro H; injection H as <- <-; exact S. }
    destruct (Lookup (dr_pad d) n) as [[ap|]|]; cbn [bind]; [| |intro H; discriminate H].
    2: { intro H; injection H as <- <-; exact S. }
    destruct (leaf_matches ap) as [[]|]; cbn [bind]; [| |intro H; discriminate H]. { intro H; injection H as <- <-; exact S. }
    destruct (if dr_useTBs d then map_get beq n (dr_tbs d) else None). { intro H; injection H as <- <-; exact S. }
    destruct (PAD_Set (dr_pad d) r n k) as [[pad|]|] eqn:PS; cbn [bind]; [| |intro H; discriminate H].
    2: { intro H; injection H as <- <-; exact S. }
    intro H; injection H as <- <-.
    assert (X : pd_latest pad = pd_latest (dr_pad d)).
    { unfold PAD_Set in PS. destruct (Set_ _ _ _ _ _) as [[t|]|]; cbn [bind option_map] in PS; [|discriminate PS|discriminate PS].
      injection PS as <-. reflexivity. }
    destruct S as [S1 S2]. split; cbn [dr_pad dr_tbs]; [rewrite X; exact S1|].
    destruct (dr_useTBs d); [|exact S2]. intros m tb. destruct (beq_spec m n) as [->|Q].
    - rewrite (map_get_set_same _ beq_eq). intro H. injection H as <-. apply newtb_len.
    - rewrite (map_get_set_other _ beq_eq) by exact Q. apply S2.
  Qed.
  Lemma run_sizes ops : forall d d', sizes_ok d -> dir_run d ops = Ok d' -> sizes_ok d'.
  Proof.
    induction ops as [|op ops IH]; intros d d' S; cbn [dir_run]; [intro H; injection H as <-; exact S|].
    destruct (dir_step d op) as [d1|] eqn:E; cbn [bind]; [|intro H; discriminate H]. apply IH.
    destruct op as [r n k| |t]; cbn [dir_step] in E.
    - destruct (Register d r n k) as [[d2 resp]|] eqn:R; cbn [bind] in E; [|discriminate E]. injection E as <-.
      eapply register_sizes; eauto.
    - injection E as <-. unfold Directory_Update. split; cbn [dr_pad dr_tbs].
      + unfold Update. destruct (evict (dr_pad d)) as [sn ld].
        unfold signTreeRoot. cbn [pd_latest]. unfold NewSTR. cbn [st_body s_phash]. apply ok_shake_len. exact OK.
      + intros n tb H. discriminate H.
    - injection E as <-. exact S.
  Qed.
  Lemma built_sizes r1 r2 ops d : dir_built dl0 vk sk size r1 r2 ops d -> sizes_ok d.
  Proof.
    intros (d0 & N & R). eapply run_sizes; [|exact R]. clear R.
    unfold Directory_New, NewPAD in N.
    destruct (NewMerkleTree r1) as [tree|]; cbn [bind] in N; [|discriminate N].
    destruct (MakeRand r2) as [ph|] eqn:MR; cbn [bind] in N; [|discriminate N].
    unfold signTreeRoot in N. cbn [bind] in N. injection N as <-. split; cbn [dr_pad dr_tbs pd_latest].
    - unfold NewSTR. cbn [st_body s_phash]. unfold MakeRand in MR. destruct r2; [|discriminate MR]. injection MR as <-. apply ok_shake_len. exact OK.
    - intros n tb H. discriminate H.
  Qed.

  Section D.
    Variables (r1 r2 : option bytes) (ops : list dir_op) (d : Directory).
    Hypothesis B : dir_built dl0 vk sk size r1 r2 ops d.
    Hypothesis F : (N.of_nat (dupdates ops) < two64)%N.
    Hypothesis D : deadlines_ok dl0 ops.
    Hypothesis VL : forall m, length (snd (vrf_prove vk m)) <= 96.

    Lemma latest_le : str_le (LatestSTR d).
    Proof.
      destruct (built_dir_inv OK _ _ _ _ _ _ _ _ B F) as (pops & hist & I & _ & _).
      pose proof (latest_wf OK _ _ _ _ _ _ _ _ I F D) as W.
      destruct (str_parts _ _ _ _ _ _ I (latest_get d)) as (dl & AD & A1 & A2 & A3).
      destruct (built_sizes _ _ _ _ B) as [A4 _]. unfold LatestSTR in *. unfold str_le. unfold wf_dirstr in W. cbn [NewDirSTR d_body d_pol] in *.
      rewrite AD in *. destruct W as [[W1 W2] (_ & _ & W3)]. rewrite A1, A2, A4. cbn [NewPolicies pol_version pol_hashid pol_vrf pol_deadline].
      rewrite A3. repeat split; (exact W1 || exact W2 || exact W3 || lia).
    Qed.
    Lemma tbs_le n tb : (if dr_useTBs d then map_get beq n (dr_tbs d) else None) = Some tb -> length (tb_index tb) = 32 /\ length (tb_sig tb) = 64.
    Proof. destruct (dr_useTBs d); intro H; [|discriminate H]. apply (proj2 (built_sizes _ _ _ _ B) _ _ H). Qed.

    (** Registrations and lookups. *)
    Definition answer_le (dep k : nat) (resp : Response) : Prop :=
      r_df resp = None \/
      exists ap leaf s tb, r_df resp = Some (DProof (Some (mkDP [Some ap] [Some s] tb))) /\ ap_leaf ap = Some leaf /\
        (length (ap_pruned ap) <= dep -> match pn_value leaf with Some v => length v <= k | None => True end ->
         match tb with Some tb => length (tb_value tb) <= k | None => True end ->
         length (response_text resp) <= 1230 + 130 * dep + 8 * ((k + 2) / 3)).
    Lemma one_answer dep k e name ap tb s : LookupInEpoch (dr_pad d) name (latestEpoch d) = Ok (Some ap) ->
      match tb with Some tb => length (tb_index tb) = 32 /\ length (tb_sig tb) = 64 | None => True end ->
      (0 <= e < 1000)%Z -> s = LatestSTR d ->
      answer_le dep k (mkResp e (Some (DProof (Some (mkDP [Some ap] [Some s] tb))))).
    Proof.
      intros L T E ->. right. destruct (built_dir_inv OK _ _ _ _ _ _ _ _ B F) as (pops & hist & I & _ & _).
      destruct (lookup_le _ _ _ _ _ _ _ I L VL) as (_ & _ & leaf & Lf & P).
      exists ap, leaf, (LatestSTR d), tb. split; [reflexivity|]. split; [exact Lf|]. intros D1 D2 D3.
      apply answer_size; [apply P; assumption|exact latest_le| |exact E].
      destruct tb as [tb|]; [|exact I0 || exact Logic.I]. unfold tb_le. destruct T as [T1 T2]. lia.
    Qed.
    Lemma register_le dep k r name key d' resp : Register d r name key = Ok (d', resp) -> answer_le dep k resp.
    Proof.
      unfold Register, Lookup. fold (latestEpoch d).
      destruct (is_nil name || is_nil key). { intro H; injection H as <- <-. left; reflexivity. }
      destruct (LookupInEpoch (dr_pad d) name (latestEpoch d)) as [[ap|]|] eqn:E; cbn [bind].
      2:{ intro H; injection H as <- <-. left; reflexivity. }
      2:{ intro H; discriminate H. }
      destruct (leaf_matches ap) as [[]|]; cbn [bind]; [| |intro H; discriminate H].
      { intro H; injection H as <- <-. eapply one_answer; [exact E|exact Logic.I|vm_compute; split; congruence|reflexivity]. }
      destruct (if dr_useTBs d then map_get beq name (dr_tbs d) else None) as [tb|] eqn:T.
      { intro H; injection H as <- <-. eapply one_answer; [exact E|exact (tbs_le _ _ T)|vm_compute; split; congruence|reflexivity]. }
      destruct (PAD_Set (dr_pad d) r name key) as [[pad|]|] eqn:PS; cbn [bind]; [| |intro H; discriminate H].
      2:{ intro H; injection H as <- <-. left; reflexivity. }
      intro H; injection H as <- <-.
      assert (X : pd_latest pad = pd_latest (dr_pad d)).
      { unfold PAD_Set in PS. destruct (Set_ _ _ _ _ _) as [[t|]|]; cbn [bind option_map] in PS; [|discriminate PS|discriminate PS].
        injection PS as <-. reflexivity. }
      eapply one_answer; [exact E| |vm_compute; split; congruence|unfold LatestSTR; cbn [dr_pad]; rewrite X; reflexivity].
      destruct (dr_useTBs d); [apply newtb_len|exact Logic.I].
    Qed.
    Lemma keylookup_le dep k name resp : KeyLookup d name = Ok resp -> answer_le dep k resp.
    Proof.
      unfold KeyLookup, Lookup. fold (latestEpoch d).
      destruct (is_nil name). { intro H; injection H as <-. left; reflexivity. }
      destruct (LookupInEpoch (dr_pad d) name (latestEpoch d)) as [[ap|]|] eqn:E; cbn [bind].
      2:{ intro H; injection H as <-. left; reflexivity. }
      2:{ intro H; discriminate H. }
      destruct (leaf_matches ap) as [[]|]; cbn [bind]; [| |intro H; discriminate H].
      { intro H; injection H as <-. eapply one_answer; [exact E|exact Logic.I|vm_compute; split; congruence|reflexivity]. }
      destruct (if dr_useTBs d then map_get beq name (dr_tbs d) else None) as [tb|] eqn:T; intro H; injection H as <-;
        (eapply one_answer; [exact E| |vm_compute; split; congruence|reflexivity]); [exact (tbs_le _ _ T)|exact Logic.I].
    Qed.

    (** Answers with many roots. *)
    Lemma str_ge e s : GetSTR (dr_pad d) e = Some s -> 338 <= tlen (enc_dirstr (NewDirSTR s)).
    Proof.
      intro G. destruct (built_dir_inv OK _ _ _ _ _ _ _ _ B F) as (pops & hist & I & _ & _).
      destruct (str_parts _ _ _ _ _ _ I G) as (dl & AD & A1 & A2 & A3).
      eapply str_size_ge; [reflexivity|reflexivity|..]; rewrite ?AD; try assumption; reflexivity.
    Qed.
    Lemma strs_ge eps strs : mapM (fun ep => NewDirSTR' (GetSTR (dr_pad d) ep)) eps = Ok strs ->
      length strs = length eps /\ forall s, In s strs -> 338 <= tlen (enc_dirstr s).
    Proof.
      revert strs. induction eps as [|e eps IH]; intros strs; cbn [mapM].
      - intro H; injection H as <-. split; [reflexivity|intros s []].
      - destruct (GetSTR (dr_pad d) e) as [s|] eqn:G; cbn [NewDirSTR' bind]; [|intro H; discriminate H].
        destruct (mapM _ eps) as [l|]; cbn [bind]; intro H; [|discriminate H]. injection H as <-.
        destruct (IH _ eq_refl) as [A K]. split; [cbn [length]; lia|]. intros x [<-|X]; [eapply str_ge; eauto|apply K; exact X].
    Qed.
    Lemma monitor_ge name eps : forall aps strs, monitor_loop d name eps = Ok (Some (aps, strs)) ->
      length aps = length eps /\ length strs = length eps /\
      (forall a, In a aps -> 155 <= tlen (enc_authpath a)) /\ (forall s, In s strs -> 338 <= tlen (enc_dirstr s)).
    Proof.
      destruct (built_dir_inv OK _ _ _ _ _ _ _ _ B F) as (pops & hist & I & _ & _).
      induction eps as [|ep eps IH]; intros aps strs; cbn [monitor_loop].
      { intro H; injection H as <- <-. repeat split; intros ? []. }
      destruct (LookupInEpoch (dr_pad d) name ep) as [[ap|]|] eqn:E; cbn [bind];
        [|intro H; discriminate H|intro H; discriminate H].
      destruct (GetSTR (dr_pad d) ep) as [x|] eqn:G; cbn [NewDirSTR' bind]; [|intro H; discriminate H].
      destruct (monitor_loop d name eps) as [[[a s]|]|]; cbn [bind option_map];
        [|intro H; discriminate H|intro H; discriminate H].
      intro H; injection H as <- <-. cbn [fst snd]. destruct (IH _ _ eq_refl) as (A1 & A2 & A3 & A4).
      cbn [length]. split; [lia|]. split; [lia|]. split; intros y [<-|H]; auto.
      - destruct (lookup_le _ _ _ _ _ _ _ I E VL) as (N1 & N2 & _). apply path_size_ge; assumption.
      - eapply str_ge; eauto.
    Qed.
    (** The number of epochs of an interval. *)
    Lemma epochs_count a b eps : epochs a b = Ok eps -> (a <= b)%N -> length eps = N.to_nat (b + 1 - a).
    Proof.
      unfold epochs. destruct (N.eqb b _); [intro H; discriminate H|]. intros H _. injection H as <-.
      rewrite map_length, seq_length. reflexivity.
    Qed.
    Lemma inepoch_ge name e resp : KeyLookupInEpoch d name e = Ok resp -> r_df resp <> None ->
      338 * N.to_nat (latestEpoch d + 1 - e) <= length (response_text resp).
    Proof.
      unfold KeyLookupInEpoch. destruct (is_nil name || N.ltb (latestEpoch d) e) eqn:Z.
      { intro H; injection H as <-. intro N; destruct (N eq_refl). }
      apply orb_false_iff in Z as [_ Z]. apply N.ltb_ge in Z.
      destruct (LookupInEpoch (dr_pad d) name e) as [[ap|]|] eqn:E; cbn [bind].
      2:{ intro H; injection H as <-. intro N; destruct (N eq_refl). }
      2:{ intro H; discriminate H. }
      destruct (epochs e (latestEpoch d)) as [eps|] eqn:EP; cbn [bind]; [|intro H; discriminate H].
      destruct (mapM _ eps) as [strs|] eqn:M; cbn [bind]; [|intro H; discriminate H].
      destruct (strs_ge _ _ M) as [Ln Sz]. rewrite (epochs_count _ _ _ EP Z) in Ln. rewrite <- Ln.
      assert (Az : forall x, In x [ap] -> 0 <= tlen (enc_authpath x)) by (intros; lia).
      destruct (leaf_matches ap) as [[]|]; cbn [bind]; intro H; [| |discriminate H]; injection H as <-; intros _;
        [pose proof (proof_size_ge ReqSuccess [ap] strs None 0 338 Az Sz) as K | pose proof (proof_size_ge ReqNameNotFound [ap] strs None 0 338 Az Sz) as K];
        unfold NewKeyLookupInEpochProof; cbn [map] in K; lia.
    Qed.
    Lemma monitor_size name s e resp : Monitor d name s e = Ok resp -> r_df resp <> None ->
      493 * N.to_nat (N.min e (latestEpoch d) + 1 - s) <= length (response_text resp).
    Proof.
      unfold Monitor. destruct (is_nil name || N.ltb (latestEpoch d) s || N.ltb e s) eqn:Z.
      { intro H; injection H as <-. intro N; destruct (N eq_refl). }
      apply orb_false_iff in Z as [Z Z2]. apply orb_false_iff in Z as [_ Z]. apply N.ltb_ge in Z, Z2.
      replace (if N.ltb (latestEpoch d) e then latestEpoch d else e) with (N.min e (latestEpoch d))
        by (destruct (N.ltb_spec (latestEpoch d) e); lia).
      destruct (epochs s _) as [eps|] eqn:EP; cbn [bind]; [|intro H; discriminate H].
      destruct (monitor_loop d name eps) as [[[aps strs]|]|] eqn:M; cbn [bind]; [| |intro H; discriminate H].
      2:{ intro H; injection H as <-. intro N; destruct (N eq_refl). }
      intro H; injection H as <-. intros _. destruct (monitor_ge _ _ _ _ M) as (L1 & L2 & A & S).
      apply epochs_count in EP; [|lia]. rewrite <- EP.
      pose proof (proof_size_ge ReqSuccess aps strs None 155 338 A S) as K. unfold NewMonitoringProof. lia.
    Qed.
  End D.
End S.
