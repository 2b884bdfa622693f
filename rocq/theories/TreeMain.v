(** Facts about reachable trees assembled for the property theorems and for
    the directory layers above. *)
From Coq Require Import List NArith Lia Bool Arith.
From Verif Require Import Base Utils Crypto Tree TreeFacts TreeSpec TreeHist PathFacts SoundFacts.
Import ListNotations.

Section Main.
  Context {C : Crypto} (OK : CryptoOk C).
  Let Hlen := ok_shake_len _ OK.

  Lemma match_bits_complete (a b : list bool) : forall l i,
    i + l <= length a -> i + l <= length b ->
    firstn l (skipn i a) = firstn l (skipn i b) -> match_bits a b i l = Ok true.
  Proof.
    induction l; intros i La Lb E; auto. cbn [match_bits].
    assert (G : forall (l : list bool) i, i < length l -> exists x, nth_error l i = Some x /\ skipn i l = x :: skipn (i + 1) l).
    { clear. induction l; intros i H; simpl in H; [lia|]. destruct i; simpl; eauto.
      destruct (IHl i ltac:(lia)) as (x & A & B). exists x. rewrite A. split; auto. }
    destruct (G a i ltac:(lia)) as (x & Ea & Sa), (G b i ltac:(lia)) as (y & Eb & Sb).
    rewrite Sa, Sb in E. simpl in E. injection E as -> E.
    unfold index. rewrite Ea, Eb. cbn [bind]. rewrite eqb_reflx. apply IHl; auto; lia.
  Qed.

  (** Index of an empty branch that collides with the looked-up index. *)
  Lemma empty_index_deep nb i l :
    length i = nb -> l <= 8 * nb -> ToBytes (firstn l (ToBits i)) = i -> 8 * (nb - 1) < l \/ nb = 0.
  Proof.
    intros Li Ll E. apply (f_equal (@length _)) in E. rewrite ToBytes_length, firstn_length, ToBits_length in E.
    pose proof (pad8_bound (Nat.min l (8 * length i))). lia.
  Qed.

  Lemma get_complete nb m f i :
    tree_inv nb m f -> clean (t_nonce m) (t_root m) -> length i = nb ->
    exists ap leaf, Get m i = Ok ap /\ ap_leaf ap = Some leaf /\ ap_lookup ap = i /\
      match f i with
      | Some b => ProofType ap = Ok ProofOfInclusion /\
                  pn_value leaf = Some (b_value b) /\
                  Verify ap (b_key b) (Some (b_value b)) (fresh_hash (t_nonce m) (t_root m)) = Ok None
      | None => pn_index leaf <> i -> ProofType ap = Ok ProofOfAbsence /\ pn_value leaf = None /\
                  forall key v, Verify ap key v (fresh_hash (t_nonce m) (t_root m)) = Ok None
      end.
  Proof.
    intros I CL L.
    destruct (get_inv OK nb m f i I L) as (ap & leaf & G & AL & AN & LK & Lp & Fp & Lv & PR & M & H).
    specialize (H CL). exists ap, leaf. split; auto. split; auto. split; auto.
    unfold ProofType, Verify. unfold ProofType. rewrite AL.
    destruct (f i) as [b|] eqn:F.
    - assert (pn_index leaf = i) by (rewrite M; reflexivity).
      assert (Ev : pn_value leaf = Some (b_value b)) by (rewrite M; reflexivity).
      assert (Ec : pn_com leaf = Some (commit_of b)) by (rewrite M; reflexivity).
      rewrite LK, H0, beq_refl. cbn [bind]. split; auto. split; auto.
      rewrite Ev, Ec, H. cbn [bind obytes]. rewrite !beq_refl. simpl negb. cbv iota.
      unfold Commit_Verify. simpl. rewrite !beq_refl. reflexivity.
    - intro NE. destruct M as (Ev & M).
      destruct (beq_spec (ap_lookup ap) (pn_index leaf)) as [E|_]; [congruence|].
      split; auto. split; auto. intros key v. cbn [bind].
      assert (LL : pn_level leaf <= 8 * length (pn_index leaf)).
      { apply (f_equal (@length _)) in PR. rewrite !firstn_length, !ToBits_length, L in PR. lia. }
      rewrite match_bits_complete; rewrite ?ToBits_length, ?LK, ?L; try lia; auto.
      cbn [bind]. rewrite Ev, H. cbn [bind]. rewrite beq_refl. reflexivity.
  Qed.

  Lemma last_set_from_salt ops : forall f,
    (forall j b, f j = Some b -> length (b_salt b) = 32) ->
    forall j b, last_set_from f ops j = Some b -> length (b_salt b) = 32.
  Proof.
    induction ops as [|op ops IH]; simpl; intros f H j b E; eauto.
    apply (IH (last_set_step f op)) in E; auto.
    intros j' b' E'. destruct op as [[r|] idx key value|]; simpl in E'; eauto.
    destruct (beq j' idx); eauto. injection E' as <-. simpl. apply Hlen.
  Qed.

  Lemma new_tree_nonce r m : NewMerkleTree r = Some m -> length (t_nonce m) = 32.
  Proof.
    unfold NewMerkleTree, MakeRand. destruct r; simpl; try discriminate. intros [= <-]. apply Hlen.
  Qed.

  (** Reachable trees. *)
  Lemma reach_inv nb r0 m0 ops :
    0 < nb -> NewMerkleTree r0 = Some m0 -> ops_len nb ops ->
    exists m, run_tree m0 ops = Ok m /\ t_nonce m = t_nonce m0 /\ length (t_nonce m) = 32 /\
      tree_inv nb m (last_set ops) /\
      (forall j b, last_set ops j = Some b -> length (b_salt b) = 32).
  Proof.
    intros P N L. pose proof (new_tree_inv nb r0 m0 P N) as I0.
    destruct (run_inv nb ops m0 _ I0 L) as (m & E & En & I). exists m.
    split; auto. split; auto. split; [rewrite En; eapply new_tree_nonce; eauto|]. split; auto.
    apply last_set_from_salt. discriminate.
  Qed.

  Lemma tree_shallow nb m f k :
    tree_inv nb m f -> 0 < k -> spread k (fun i => f i <> None) -> shallow k (t_root m).
  Proof.
    intros I P S. apply (spread_shallow_root nb); auto; try apply I.
    intros x y (dx & Ix & Ex) (dy & Iy & Ey). apply S.
    - apply (ti_leaves _ _ _ I) in Ix. destruct Ix as (j & b & Fj & ->). simpl in Ex. congruence.
    - apply (ti_leaves _ _ _ I) in Iy. destruct Iy as (j & b & Fj & ->). simpl in Ey. congruence.
  Qed.

  Lemma get_loop_shallow k n : forall bits acc dd ps lf,
    shallow k n -> get_loop bits dd n acc = Ok (ps, lf) -> shallow k lf.
  Proof.
    induction n as [| |? ? ? l IHl r IHr]; intros bits acc dd ps lf SH E1; cbn [get_loop] in E1;
      try (injection E1 as _ <-; exact SH).
    destruct (index bits dd) as [[|]|]; cbn [bind] in E1; try discriminate; simpl in SH.
    - eapply IHr; [|exact E1]. tauto.
    - eapply IHl; [|exact E1]. tauto.
  Qed.

  (** If all stored indices are spread within [8*(nb-1)] bits, an empty
      branch never carries the index [i]. *)
  Lemma absent_index nb m f i ap leaf :
    1 < nb -> tree_inv nb m f -> length i = nb -> f i = None ->
    spread (8 * (nb - 1)) (fun j => f j <> None) ->
    Get m i = Ok ap -> ap_leaf ap = Some leaf -> pn_index leaf <> i.
  Proof.
    intros P I L F S G AL E.
    destruct (get_inv OK nb m f i I L) as (ap' & leaf' & G' & AL' & AN & LK & Lp & Fp & Lv & PR & M & H).
    rewrite G in G'. injection G' as <-. rewrite AL in AL'. injection AL' as <-.
    rewrite F in M. destruct M as (_ & [(Ee & _ & Ei & NX)|(_ & NE & _)]); [|congruence].
    rewrite E in Ei. symmetry in Ei. destruct (empty_index_deep nb i (pn_level leaf) L ltac:(lia) Ei) as [D|D]; [|lia].
    (* there is an empty branch deeper than 8*(nb-1): some interior node above it has two leaves *)
    unfold Get in G.
    pose proof (ti_wf _ _ _ I) as W.
    destruct (get_loop_spec Hlen nb (ToBits i) (t_root m) [] []) as
      (q & ps & lf & E1 & Lps & Fps & Pq & Wq & NI & In1 & In2 & HH); auto.
    { rewrite ToBits_length. lia. }
    cbn [app length] in *. rewrite E1 in G. cbn [bind] in G.
    destruct (proof_leaf i lf) as [pl|] eqn:PL; cbn [bind] in G; [|discriminate].
    injection G as G. subst ap. simpl in AL. injection AL as ->.
    assert (SH : shallow (8 * (nb - 1)) (t_root m)).
    { apply (tree_shallow nb m f); auto; lia. }
    assert (SL : shallow (8 * (nb - 1)) lf).
    { exact (get_loop_shallow _ _ _ _ _ _ _ SH E1). }
    destruct lf as [lvl ix|lvl d|]; simpl in PL.
    - injection PL as <-. simpl in *. lia.
    - destruct (beq (l_index d) i); injection PL as <-; simpl in Ee; discriminate.
    - discriminate.
  Qed.

  Lemma built_inv nb r0 ops m : built nb r0 ops m ->
    length (t_nonce m) = 32 /\ tree_inv nb m (last_set ops) /\
    (forall j b, last_set ops j = Some b -> length (b_salt b) = 32) /\
    (forall r1 ops' m', r1 = r0 -> built nb r1 ops' m' -> t_nonce m' = t_nonce m).
  Proof.
    intros (P & L & m0 & N & E). destruct (reach_inv nb r0 m0 ops P N L) as (m' & E' & En & Ln & I & S).
    rewrite E in E'. injection E' as <-. split; auto. split; auto. split; auto.
    intros r1 ops' m' -> (P' & L' & m0' & N' & E''). rewrite N in N'. injection N' as <-.
    destruct (reach_inv nb r0 m0 ops' P N L') as (m'' & E3 & En3 & _). rewrite E'' in E3. injection E3 as <-. congruence.
  Qed.

  Lemma aph_loop_ok bits pruned l : forall h,
    l <= length bits -> l <= length pruned -> aph_loop bits pruned l h <> Panic.
  Proof.
    induction l; intros h A B; cbn [aph_loop]; [discriminate|].
    destruct (index bits l) as [b|] eqn:Eb; [|apply index_panic in Eb; lia].
    destruct (index pruned l) as [p|] eqn:Ep; [|apply index_panic in Ep; lia].
    cbn [bind]. apply IHl; lia.
  Qed.

  Lemma match_bits_ok a b : forall l i,
    i + l <= length a -> i + l <= length b -> match_bits a b i l <> Panic.
  Proof.
    induction l; intros i A B; cbn [match_bits]; [discriminate|].
    destruct (index a i) as [x|] eqn:Eb; [|apply index_panic in Eb; lia].
    destruct (index b i) as [y|] eqn:Ep; [|apply index_panic in Ep; lia].
    cbn [bind]. destruct (eqb x y); [|discriminate]. apply IHl; lia.
  Qed.

  Lemma verify_no_panic ap key v root : shape_ok ap -> Verify ap key v root <> Panic.
  Proof.
    intros (leaf & AL & L1 & L2 & L3 & CM). unfold Verify, ProofType. rewrite AL. cbn [bind].
    assert (T : pn_com leaf <> None \/ pn_empty leaf = true ->
       (do h <- authPathHash ap leaf; Ok (if beq root h then None else Some ErrUnequalTreeHashes)) <> Panic).
    { intro H. unfold authPathHash, pn_hash, pn_pre.
      assert (X : exists x, (if pn_empty leaf then Ok (empty_pre (ap_nonce ap) (pn_index leaf) (pn_level leaf))
        else match pn_com leaf with None => Panic | Some c => Ok (leaf_pre (ap_nonce ap) (pn_index leaf) (pn_level leaf) (c_value c)) end) = Ok x).
      { destruct (pn_empty leaf); eauto. destruct (pn_com leaf); eauto. destruct H; congruence. }
      destruct X as (x & ->). cbn [bind].
      pose proof (aph_loop_ok (ToBits (pn_index leaf)) (ap_pruned ap) (pn_level leaf) (shake x)) as A.
      rewrite ToBits_length in A. specialize (A L1 L3).
      destruct (aph_loop _ _ _ _); cbn [bind]; congruence. }
    destruct (beq_spec (ap_lookup ap) (pn_index leaf)) as [EQ|NE].
    - destruct (negb _); [discriminate|]. destruct (pn_com leaf) as [c|] eqn:Ec.
      + destruct (Commit_Verify _ _); [|discriminate]. apply T. left. congruence.
      + destruct (CM eq_refl). congruence.
    - pose proof (match_bits_ok (ToBits (pn_index leaf)) (ToBits (ap_lookup ap)) (pn_level leaf) 0) as M.
      rewrite !ToBits_length in M. specialize (M L1 L2).
      destruct (match_bits _ _ _ _) as [[|]|]; cbn [bind]; try congruence.
      destruct (pn_value leaf); [discriminate|]. apply T.
      destruct (pn_com leaf) eqn:Ec; [left; congruence|]. right. apply CM. reflexivity.
  Qed.
End Main.
