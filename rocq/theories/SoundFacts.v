(** Canonicity and binding of root hashes; soundness of [Verify]. *)
From Coq Require Import List NArith Lia Bool Arith.
From Verif Require Import Base Utils Crypto Tree TreeFacts TreeSpec TreeHist PathFacts.
Import ListNotations.

Lemma empty_pre_length nonce i l : length (empty_pre nonce i l) = 5 + length nonce + length i.
Proof. unfold empty_pre. cbn [concat]. rewrite !app_length, UInt32ToBytes_length. simpl. lia. Qed.
Lemma leaf_pre_length nonce i l c :
  length (leaf_pre nonce i l c) = 5 + length nonce + length i + length c.
Proof. unfold leaf_pre. cbn [concat]. rewrite !app_length, UInt32ToBytes_length. simpl. lia. Qed.

Lemma empty_leaf_pre_neq n1 i1 l1 n2 i2 l2 c : empty_pre n1 i1 l1 <> leaf_pre n2 i2 l2 c.
Proof. unfold empty_pre, leaf_pre, EmptyBranchIdentifier, LeafIdentifier. cbn [concat app]. discriminate. Qed.

Lemma leaf_pre_inj n1 i1 l1 c1 n2 i2 l2 c2 :
  length c1 = length c2 -> length i1 = length i2 ->
  leaf_pre n1 i1 l1 c1 = leaf_pre n2 i2 l2 c2 -> n1 = n2 /\ i1 = i2 /\ c1 = c2.
Proof.
  unfold leaf_pre. cbn [concat]. rewrite !app_nil_r. intros Lc Li E.
  cbn [app] in E. apply (f_equal (@tl byte)) in E. cbn [tl] in E.
  rewrite !app_assoc in E. apply app_inj_len_r in E; [|exact Lc]. destruct E as [E ->].
  apply app_inj_len_r in E; [|reflexivity]. destruct E as [E _].
  apply app_inj_len_r in E; [|exact Li]. tauto.
Qed.

Lemma empty_pre_inj n1 i1 l1 n2 i2 l2 :
  length i1 = length i2 ->
  empty_pre n1 i1 l1 = empty_pre n2 i2 l2 -> n1 = n2 /\ i1 = i2.
Proof.
  unfold empty_pre. cbn [concat]. rewrite !app_nil_r. intros Li E.
  cbn [app] in E. apply (f_equal (@tl byte)) in E. cbn [tl] in E.
  rewrite !app_assoc in E. apply app_inj_len_r in E; [|reflexivity]. destruct E as [E _].
  apply app_inj_len_r in E; [|exact Li]. tauto.
Qed.

(** What the root hash is meant to commit to: index and commitment value. *)
Definition proj (d : leafdata) : bytes * bytes := (l_index d, c_value (l_com d)).

Lemma dense_interior_two nb pre n lvl lh rh l r :
  n = Interior lvl lh rh l r -> wf nb pre n -> dense n ->
  exists a b, In a (leaves n) /\ In b (leaves n) /\ l_index a <> l_index b.
Proof.
  intros E W D. pose proof (wf_NoDup _ _ _ W) as ND. rewrite E in *.
  simpl in D. destruct D as (D & _). simpl in ND |- *.
  destruct (leaves l ++ leaves r) as [|a [|b t]]; simpl in D; try lia.
  exists a, b. simpl. repeat split; auto. simpl in ND. inversion ND; subst. intro X. apply H1. left. auto.
Qed.

Section Canon.
  Context {C : Crypto}.

  Lemma side_iff nb pre l1 r1 l2 r2 :
    wf nb (pre ++ [false]) l1 -> wf nb (pre ++ [true]) r1 ->
    wf nb (pre ++ [false]) l2 -> wf nb (pre ++ [true]) r2 ->
    (forall p, In p (map proj (leaves l1 ++ leaves r1)) <-> In p (map proj (leaves l2 ++ leaves r2))) ->
    (forall p, In p (map proj (leaves l1)) <-> In p (map proj (leaves l2))) /\
    (forall p, In p (map proj (leaves r1)) <-> In p (map proj (leaves r2))).
  Proof.
    intros Wl1 Wr1 Wl2 Wr2 H.
    assert (BL : forall b n p, wf nb (pre ++ [b]) n -> In p (map proj (leaves n)) ->
        nth_error (ToBits (fst p)) (length pre) = Some b).
    { intros b n p W I. apply in_map_iff in I. destruct I as (d & <- & I).
      apply (wf_leaves _ _ _ _ W) in I. destruct I as [_ I]. apply prefix_nth in I. apply I. }
    split; intro p; split; intro I.
    - assert (X : In p (map proj (leaves l2 ++ leaves r2))) by (apply H; rewrite map_app, in_app_iff; auto).
      rewrite map_app, in_app_iff in X. destruct X as [X|X]; auto.
      pose proof (BL _ _ _ Wl1 I). pose proof (BL _ _ _ Wr2 X). congruence.
    - assert (X : In p (map proj (leaves l1 ++ leaves r1))) by (apply H; rewrite map_app, in_app_iff; auto).
      rewrite map_app, in_app_iff in X. destruct X as [X|X]; auto.
      pose proof (BL _ _ _ Wl2 I). pose proof (BL _ _ _ Wr1 X). congruence.
    - assert (X : In p (map proj (leaves l2 ++ leaves r2))) by (apply H; rewrite map_app, in_app_iff; auto).
      rewrite map_app, in_app_iff in X. destruct X as [X|X]; auto.
      pose proof (BL _ _ _ Wr1 I). pose proof (BL _ _ _ Wl2 X). congruence.
    - assert (X : In p (map proj (leaves l1 ++ leaves r1))) by (apply H; rewrite map_app, in_app_iff; auto).
      rewrite map_app, in_app_iff in X. destruct X as [X|X]; auto.
      pose proof (BL _ _ _ Wr2 I). pose proof (BL _ _ _ Wl1 X). congruence.
  Qed.

  (** Same contents, same hash. *)
  Lemma canon nb nonce n1 : forall pre n2,
    wf nb pre n1 -> wf nb pre n2 -> dense n1 -> dense n2 ->
    (forall p, In p (map proj (leaves n1)) <-> In p (map proj (leaves n2))) ->
    fresh_hash nonce n1 = fresh_hash nonce n2.
  Proof.
    assert (TWO : forall pre n lvl lh rh l r p, n = Interior lvl lh rh l r -> wf nb pre n -> dense n ->
       (forall q, In q (map proj (leaves n)) -> q = p) -> False).
    { intros pre n lvl lh rh l r p E W D H.
      destruct (dense_interior_two _ _ _ _ _ _ _ _ E W D) as (a & b & Ia & Ib & N).
      apply N. apply (in_map proj) in Ia, Ib. apply H in Ia, Ib. assert (E2 : proj a = proj b) by congruence. unfold proj in E2. congruence. }
    induction n1 as [lvl i|lvl d|lvl lh rh l IHl r IHr]; intros pre n2 W1 W2 D1 D2 H.
    - destruct n2 as [lvl2 i2|lvl2 d2|lvl2 lh2 rh2 l2 r2].
      + simpl in *. destruct W1 as (-> & -> & _), W2 as (-> & -> & _). reflexivity.
      + exfalso. apply (proj2 (H (proj d2))). simpl. auto.
      + exfalso. destruct (dense_interior_two _ _ _ _ _ _ _ _ eq_refl W2 D2) as (a & _ & Ia & _).
        apply (in_map proj) in Ia. apply H in Ia. exact Ia.
    - destruct n2 as [lvl2 i2|lvl2 d2|lvl2 lh2 rh2 l2 r2].
      + exfalso. apply (proj1 (H (proj d))). simpl. auto.
      + assert (E : proj d2 = proj d).
        { destruct (proj1 (H (proj d)) (or_introl eq_refl)) as [E|[]]. exact E. }
        unfold proj in E. injection E as E1 E2.
        simpl in *. destruct W1 as (-> & _), W2 as (-> & _). rewrite E1, E2. reflexivity.
      + exfalso. apply (TWO _ _ _ _ _ _ _ (proj d) eq_refl W2 D2).
        intros q Hq. apply H in Hq. simpl in Hq. intuition.
    - destruct n2 as [lvl2 i2|lvl2 d2|lvl2 lh2 rh2 l2 r2].
      + exfalso. destruct (dense_interior_two _ _ _ _ _ _ _ _ eq_refl W1 D1) as (a & _ & Ia & _).
        apply (in_map proj) in Ia. apply H in Ia. exact Ia.
      + exfalso. apply (TWO _ _ _ _ _ _ _ (proj d2) eq_refl W1 D1).
        intros q Hq. apply H in Hq. simpl in Hq. intuition.
      + simpl in W1, W2, D1, D2. destruct W1 as (_ & _ & Wl1 & Wr1), W2 as (_ & _ & Wl2 & Wr2).
        destruct D1 as (_ & Dl1 & Dr1), D2 as (_ & Dl2 & Dr2).
        destruct (side_iff _ _ _ _ _ _ Wl1 Wr1 Wl2 Wr2 H) as [Hl Hr].
        cbn [fresh_hash]. rewrite (IHl _ _ Wl1 Wl2 Dl1 Dl2 Hl), (IHr _ _ Wr1 Wr2 Dr1 Dr2 Hr). reflexivity.
  Qed.

  Lemma canon_root nb nonce n1 n2 :
    wf nb [] n1 -> wf nb [] n2 -> root_dense n1 -> root_dense n2 ->
    (forall p, In p (map proj (leaves n1)) <-> In p (map proj (leaves n2))) ->
    fresh_hash nonce n1 = fresh_hash nonce n2.
  Proof.
    intros W1 W2 D1 D2 H.
    destruct n1 as [| |lvl lh rh l r]; simpl in D1; try tauto.
    destruct n2 as [| |lvl2 lh2 rh2 l2 r2]; simpl in D2; try tauto.
    simpl in W1, W2. destruct W1 as (_ & _ & Wl1 & Wr1), W2 as (_ & _ & Wl2 & Wr2).
    destruct D1 as (Dl1 & Dr1), D2 as (Dl2 & Dr2).
    destruct (side_iff _ [] _ _ _ _ Wl1 Wr1 Wl2 Wr2 H) as [Hl Hr].
    cbn [fresh_hash]. rewrite (canon _ _ _ _ _ Wl1 Wl2 Dl1 Dl2 Hl), (canon _ _ _ _ _ Wr1 Wr2 Dr1 Dr2 Hr). reflexivity.
  Qed.
End Canon.

(** ** Depth *)

Lemma firstn_le_eq {A} k m (a b : list A) : k <= m -> firstn m a = firstn m b -> firstn k a = firstn k b.
Proof.
  intros L E. rewrite <- (Nat.min_l k m) by auto. rewrite <- !firstn_firstn. congruence.
Qed.

Lemma spread_shallow nb k n : forall pre,
  wf nb pre n -> dense n -> length pre <= k ->
  spread k (fun i => exists d, In d (leaves n) /\ l_index d = i) -> shallow k n.
Proof.
  induction n as [lvl i|lvl d|lvl lh rh l IHl r IHr]; intros pre W D L S.
  - simpl in *. lia.
  - simpl. auto.
  - pose proof (dense_interior_two _ _ _ _ _ _ _ _ eq_refl W D) as (a & b & Ia & Ib & N).
    pose proof (wf_leaves _ _ _ _ W Ia) as [_ Pa]. pose proof (wf_leaves _ _ _ _ W Ib) as [_ Pb].
    assert (LT : length pre < k).
    { destruct (Nat.lt_ge_cases (length pre) k); auto. exfalso. apply N. apply S; [eauto|eauto|].
      apply (firstn_le_eq k (length pre)); auto. congruence. }
    simpl in W, D. destruct W as (_ & _ & Wl & Wr), D as (_ & Dl & Dr).
    simpl. split.
    + apply (IHl _ Wl Dl); [rewrite app_length; simpl; lia|].
      intros x y (dx & Ix & Ex) (dy & Iy & Ey). apply S; [exists dx|exists dy]; simpl; rewrite in_app_iff; auto.
    + apply (IHr _ Wr Dr); [rewrite app_length; simpl; lia|].
      intros x y (dx & Ix & Ex) (dy & Iy & Ey). apply S; [exists dx|exists dy]; simpl; rewrite in_app_iff; auto.
Qed.

Lemma spread_shallow_root nb k n :
  0 < k -> wf nb [] n -> root_dense n ->
  spread k (fun i => exists d, In d (leaves n) /\ l_index d = i) -> shallow k n.
Proof.
  intros P W D S. destruct n as [| |lvl lh rh l r]; simpl in D; try tauto.
  simpl in W. destruct W as (_ & _ & Wl & Wr), D as (Dl & Dr). simpl. split.
  - apply (spread_shallow _ _ _ _ Wl Dl); [simpl; lia|].
    intros x y (dx & Ix & Ex) (dy & Iy & Ey). apply S; [exists dx|exists dy]; simpl; rewrite in_app_iff; auto.
  - apply (spread_shallow _ _ _ _ Wr Dr); [simpl; lia|].
    intros x y (dx & Ix & Ex) (dy & Iy & Ey). apply S; [exists dx|exists dy]; simpl; rewrite in_app_iff; auto.
Qed.

Lemma ToBytes_len_le k l : length l <= 8 * k -> length (ToBytes l) <= k.
Proof.
  intro H. rewrite ToBytes_length. pose proof (pad8_bound (length l)). lia.
Qed.

(** ** Verify *)
Section Verify.
  Context {C : Crypto} (OK : CryptoOk C).
  Let Hlen := ok_shake_len _ OK.

  Lemma match_bits_true a b : forall l i,
    match_bits a b i l = Ok true ->
    i + l <= length a /\ i + l <= length b \/ l = 0.
  Proof.
    induction l; intros i H; auto. left. cbn [match_bits] in H.
    destruct (index a i) as [x|] eqn:Ea; cbn [bind] in H; try discriminate.
    destruct (index b i) as [y|] eqn:Eb; cbn [bind] in H; try discriminate.
    apply index_ok in Ea, Eb. apply nth_error_lt in Ea. apply nth_error_lt in Eb.
    destruct (eqb x y); try discriminate.
    apply IHl in H. lia.
  Qed.

  Lemma match_bits_firstn a b : forall l i,
    match_bits a b i l = Ok true ->
    firstn l (skipn i a) = firstn l (skipn i b).
  Proof.
    induction l; intros i H; auto. cbn [match_bits] in H.
    destruct (index a i) as [x|] eqn:Ea; cbn [bind] in H; try discriminate.
    destruct (index b i) as [y|] eqn:Eb; cbn [bind] in H; try discriminate.
    apply index_ok in Ea, Eb. destruct (eqb x y) eqn:E; try discriminate.
    apply eqb_prop in E. subst y. apply IHl in H.
    assert (G : forall (l : list bool) i x, nth_error l i = Some x -> skipn i l = x :: skipn (i + 1) l).
    { clear. induction l; intros i x H; destruct i; simpl in *; try discriminate.
      - injection H as ->. reflexivity.
      - rewrite Nat.add_1_r in *. rewrite (IHl _ _ H), Nat.add_1_r. reflexivity. }
    rewrite (G _ _ _ Ea), (G _ _ _ Eb). simpl. f_equal. exact H.
  Qed.

  (** What a successful [Verify] has checked. *)
  Lemma verify_inv ap key value root :
    Verify ap key value root = Ok None ->
    exists leaf x, ap_leaf ap = Some leaf /\
      pn_pre (ap_nonce ap) leaf = Ok x /\
      pn_level leaf <= 8 * length (pn_index leaf) /\ pn_level leaf <= length (ap_pruned ap) /\
      root = hash_up (sibs_of (ToBits (pn_index leaf)) (ap_pruned ap) (pn_level leaf)) (shake x) /\
      ((pn_index leaf = ap_lookup ap /\ obytes (pn_value leaf) = obytes value /\
        exists c, pn_com leaf = Some c /\
          c_value c = shake (c_salt c ++ key ++ obytes value)) \/
       (pn_index leaf <> ap_lookup ap /\ pn_value leaf = None /\
        firstn (pn_level leaf) (ToBits (pn_index leaf)) = firstn (pn_level leaf) (ToBits (ap_lookup ap)))).
  Proof.
    unfold Verify, ProofType. destruct (ap_leaf ap) as [leaf|]; [|discriminate].
    cbn [bind]. intro H. exists leaf.
    assert (T : forall (P : Prop), 
       (do h <- authPathHash ap leaf; Ok (if beq root h then None else Some ErrUnequalTreeHashes)) = Ok None -> P ->
       exists x, Some leaf = Some leaf /\ pn_pre (ap_nonce ap) leaf = Ok x /\
       pn_level leaf <= 8 * length (pn_index leaf) /\ pn_level leaf <= length (ap_pruned ap) /\
       root = hash_up (sibs_of (ToBits (pn_index leaf)) (ap_pruned ap) (pn_level leaf)) (shake x) /\ P).
    { intros P T p. unfold authPathHash, pn_hash in T.
      destruct (pn_pre (ap_nonce ap) leaf) as [x|]; cbn [bind] in T; try discriminate.
      destruct (aph_loop _ _ _ _) as [h|] eqn:E; cbn [bind] in T; try discriminate.
      destruct (beq_spec root h) as [->|]; [|discriminate].
      apply aph_loop_up in E; auto. destruct E as (L1 & L2 & ->). rewrite ToBits_length in L1. exists x. auto 10. }
    destruct (beq_spec (ap_lookup ap) (pn_index leaf)) as [EQ|NE].
    - destruct (beq_spec (obytes (pn_value leaf)) (obytes value)) as [EV|]; simpl in H; [|discriminate].
      destruct (pn_com leaf) as [c|]; [|discriminate].
      unfold Commit_Verify in H. destruct (beq_spec (c_value c) (Digest [c_salt c; key; obytes value])) as [Ec|]; [|discriminate].
      refine (T _ H _). left. split; auto. split; auto. exists c. split; auto.
      rewrite Ec. unfold Digest. simpl. rewrite app_nil_r. reflexivity.
    - destruct (match_bits _ _ _ _) as [[|]|] eqn:M; cbn [bind] in H; try discriminate.
      destruct (pn_value leaf); [discriminate|].
      refine (T _ H _). right. split; auto. split; auto.
      apply match_bits_firstn in M. simpl in M. exact M.
  Qed.

  Lemma path_inputs_eq ap leaf x :
    pn_pre (ap_nonce ap) leaf = Ok x ->
    path_inputs ap leaf = x :: up_inputs (sibs_of (ToBits (pn_index leaf)) (ap_pruned ap) (pn_level leaf)) (shake x).
  Proof. intro H. unfold path_inputs. rewrite H. reflexivity. Qed.

  Lemma verify_inputs_eq ap leaf key value :
    ap_leaf ap = Some leaf -> verify_inputs ap key value = path_inputs ap leaf ++ opening_input leaf key value.
  Proof. intro H. unfold verify_inputs. rewrite H. reflexivity. Qed.

  (** Directions of a path below level [l] read off an index agreeing with [i]. *)
  Lemma sibs_dir ap leaf i k b :
    pn_level leaf <= 8 * length (pn_index leaf) -> pn_level leaf <= length (ap_pruned ap) ->
    firstn (pn_level leaf) (ToBits (pn_index leaf)) = firstn (pn_level leaf) (ToBits i) ->
    nth_error (map fst (sibs_of (ToBits (pn_index leaf)) (ap_pruned ap) (pn_level leaf))) k = Some b ->
    nth_error (ToBits i) k = Some b.
  Proof.
    intros L1 L2 E N. rewrite sibs_of_fst in N by (rewrite ?ToBits_length; lia).
    rewrite E in N. pose proof (nth_error_lt _ _ _ N) as LT. rewrite firstn_length in LT.
    rewrite nth_error_firstn_lt in N by lia. exact N.
  Qed.

  (** Two verified inclusion proofs for one index. *)
  Lemma inclusion_binding ap1 ap2 leaf1 leaf2 c1 c2 key v1 v2 root :
    Verify ap1 key v1 root = Ok None -> Verify ap2 key v2 root = Ok None ->
    ap_lookup ap1 = ap_lookup ap2 -> length (ap_lookup ap1) = 32 ->
    ap_leaf ap1 = Some leaf1 -> ap_leaf ap2 = Some leaf2 ->
    pn_index leaf1 = ap_lookup ap1 -> pn_index leaf2 = ap_lookup ap2 ->
    pn_empty leaf1 = false -> pn_empty leaf2 = false ->
    pn_com leaf1 = Some c1 -> pn_com leaf2 = Some c2 ->
    length (c_salt c1) = length (c_salt c2) ->
    pruned_ok ap1 -> pruned_ok ap2 ->
    obytes v1 = obytes v2 \/
    collision_between (verify_inputs ap1 key (obytes v1)) (verify_inputs ap2 key (obytes v2)).
  Proof.
    intros V1 V2 EL L32 L1 L2 I1 I2 E1 E2 C1 C2 SL P1 P2.
    apply verify_inv in V1, V2.
    destruct V1 as (l1 & x1 & A1 & X1 & B1 & D1 & R1 & K1), V2 as (l2 & x2 & A2 & X2 & B2 & D2 & R2 & K2).
    rewrite L1 in A1. rewrite L2 in A2. injection A1 as <-. injection A2 as <-.
    destruct K1 as [(_ & _ & c1' & Ec1 & Ev1)|(N & _)]; [|congruence].
    destruct K2 as [(_ & _ & c2' & Ec2 & Ev2)|(N & _)]; [|congruence].
    rewrite C1 in Ec1. rewrite C2 in Ec2. injection Ec1 as <-. injection Ec2 as <-.
    rewrite (verify_inputs_eq _ _ _ _ L1), (verify_inputs_eq _ _ _ _ L2).
    rewrite (path_inputs_eq _ _ _ X1), (path_inputs_eq _ _ _ X2).
    unfold opening_input. rewrite C1, C2.
    unfold pn_pre in X1, X2. rewrite E1, C1 in X1. rewrite E2, C2 in X2.
    injection X1 as X1. injection X2 as X2.
    destruct (two_paths OK x1 x2 (sibs_of (ToBits (pn_index leaf1)) (ap_pruned ap1) (pn_level leaf1))
       (sibs_of (ToBits (pn_index leaf2)) (ap_pruned ap2) (pn_level leaf2))) as [Co|[[Ls Ex]|[[_ Lx]|[_ Lx]]]].
    - apply sibs_of_snd; auto.
    - apply sibs_of_snd; auto.
    - intros k b1 b2 N1 N2.
      apply (sibs_dir _ _ (ap_lookup ap1)) in N1; auto; [|congruence].
      apply (sibs_dir _ _ (ap_lookup ap1)) in N2; auto; congruence.
    - congruence.
    - right. eapply coll_incl; [exact Co| |]; apply incl_appl, incl_refl.
    - rewrite <- X1, <- X2 in Ex. apply leaf_pre_inj in Ex.
      + destruct Ex as (_ & _ & Ev). rewrite Ev1, Ev2 in Ev.
        destruct (bytes_eq_dec (c_salt c1 ++ key ++ obytes v1) (c_salt c2 ++ key ++ obytes v2)) as [Eq|Ne].
        * left. apply app_inj_len in Eq; auto. destruct Eq as [_ Eq].
          apply app_inj_len in Eq; auto. tauto.
        * right. eapply coll_in; [| |exact Ev|exact Ne]; apply in_or_app; simpl; auto.
      + rewrite Ev1, Ev2, !Hlen. reflexivity.
      + congruence.
    - exfalso. rewrite <- X1, leaf_pre_length, Ev1, Hlen in Lx.
      rewrite I1, L32 in Lx. lia.
    - exfalso. rewrite <- X2, leaf_pre_length, Ev2, Hlen in Lx.
      rewrite I2, <- EL, L32 in Lx. lia.
  Qed.

  Lemma absence_pre ap leaf x :
    absence_shape ap leaf -> pn_pre (ap_nonce ap) leaf = Ok x -> length x <> 64.
  Proof.
    intros (Ln & Lc & Le) X. unfold pn_pre in X. destruct (pn_empty leaf).
    - injection X as <-. rewrite empty_pre_length, Ln. specialize (Le eq_refl). lia.
    - destruct (pn_com leaf) as [c|]; [|discriminate]. injection X as <-.
      rewrite leaf_pre_length, Ln, (Lc eq_refl c eq_refl). lia.
  Qed.

  Lemma inclusion_absence_exclusive ap1 ap2 leaf1 leaf2 key v1 v2 root :
    Verify ap1 key v1 root = Ok None -> Verify ap2 key v2 root = Ok None ->
    ap_lookup ap1 = ap_lookup ap2 -> length (ap_lookup ap1) = 32 ->
    ap_leaf ap1 = Some leaf1 -> ap_leaf ap2 = Some leaf2 ->
    pn_index leaf1 = ap_lookup ap1 -> pn_index leaf2 <> ap_lookup ap2 ->
    pn_empty leaf1 = false -> length (ap_nonce ap1) = 32 ->
    absence_shape ap2 leaf2 ->
    pruned_ok ap1 -> pruned_ok ap2 ->
    collision_between (verify_inputs ap1 key (obytes v1)) (verify_inputs ap2 key (obytes v2)).
  Proof.
    intros V1 V2 EL L32 L1 L2 I1 I2 E1 N32 SH P1 P2.
    apply verify_inv in V1, V2.
    destruct V1 as (l1 & x1 & A1 & X1 & B1 & D1 & R1 & K1), V2 as (l2 & x2 & A2 & X2 & B2 & D2 & R2 & K2).
    rewrite L1 in A1. rewrite L2 in A2. injection A1 as <-. injection A2 as <-.
    destruct K1 as [(_ & _ & c1 & C1 & Ev1)|(N & _)]; [|congruence].
    destruct K2 as [(N & _)|(_ & _ & PR)]; [congruence|].
    rewrite (verify_inputs_eq _ _ _ _ L1), (verify_inputs_eq _ _ _ _ L2).
    rewrite (path_inputs_eq _ _ _ X1), (path_inputs_eq _ _ _ X2).
    pose proof (absence_pre _ _ _ SH X2) as NX2.
    unfold pn_pre in X1. rewrite E1, C1 in X1. injection X1 as X1.
    destruct (two_paths OK x1 x2 (sibs_of (ToBits (pn_index leaf1)) (ap_pruned ap1) (pn_level leaf1))
       (sibs_of (ToBits (pn_index leaf2)) (ap_pruned ap2) (pn_level leaf2))) as [Co|[[Ls Ex]|[[_ Lx]|[_ Lx]]]].
    - apply sibs_of_snd; auto.
    - apply sibs_of_snd; auto.
    - intros k b1 b2 N1 N2.
      apply (sibs_dir _ _ (ap_lookup ap1)) in N1; auto; [|congruence].
      apply (sibs_dir _ _ (ap_lookup ap1)) in N2; auto; [congruence|]. rewrite PR. congruence.
    - congruence.
    - eapply coll_incl; [exact Co| |]; apply incl_appl, incl_refl.
    - exfalso. unfold pn_pre in X2. destruct SH as (Ln2 & Lc & _).
      destruct (pn_empty leaf2).
      + injection X2 as <-. subst x1. symmetry in Ex. exact (empty_leaf_pre_neq _ _ _ _ _ _ _ Ex).
      + destruct (pn_com leaf2) as [c2|]; [|discriminate]. injection X2 as <-. subst x1.
        specialize (Lc eq_refl c2 eq_refl).
        assert (Lcc : length (c_value c1) = length (c_value c2)) by (rewrite Ev1, Hlen; auto).
        apply leaf_pre_inj in Ex; auto.
        * destruct Ex as (_ & Ei & _). congruence.
        * apply (f_equal (@length _)) in Ex. rewrite !leaf_pre_length in Ex. lia.
    - exfalso. rewrite <- X1, leaf_pre_length, Ev1, Hlen in Lx. lia.
    - congruence.
  Qed.

  (** ** Against an honest tree *)

  Lemma node_inputs_incl nonce n1 n2 : (exists lvl lh rh r, n2 = Interior lvl lh rh n1 r) \/
    (exists lvl lh rh l, n2 = Interior lvl lh rh l n1) -> incl (node_inputs nonce n1) (node_inputs nonce n2).
  Proof.
    intros [(a & b & c & d & ->)|(a & b & c & d & ->)]; intros z Hz; simpl; rewrite in_app_iff; auto.
  Qed.

  Lemma tree_path nb m f ap key v leaf x i :
    tree_inv nb m f ->
    Verify ap key v (fresh_hash (t_nonce m) (t_root m)) = Ok None ->
    ap_leaf ap = Some leaf -> pn_pre (ap_nonce ap) leaf = Ok x ->
    firstn (pn_level leaf) (ToBits (pn_index leaf)) = firstn (pn_level leaf) (ToBits i) ->
    pruned_ok ap ->
    collision_between (path_inputs ap leaf) (node_inputs (t_nonce m) (t_root m)) \/
    exists q s,
      wf nb q s /\ firstn (length q) (ToBits i) = q /\
      incl (leaves s) (leaves (t_root m)) /\
      (forall d, In d (leaves (t_root m)) -> l_index d = i -> In d (leaves s)) /\
      (forall k, shallow k (t_root m) -> shallow k s) /\
      ((length q = pn_level leaf /\ node_pre (t_nonce m) s = x) \/
       (length q < pn_level leaf /\ (forall lvl lh rh l r, s <> Interior lvl lh rh l r) /\
        length (node_pre (t_nonce m) s) = 64)).
  Proof.
    intros I V L X PR PO. apply verify_inv in V.
    destruct V as (l & x' & A & X' & B & D & R & _). rewrite L in A. injection A as <-.
    rewrite X in X'. injection X' as <-. rewrite (path_inputs_eq _ _ _ X).
    set (sibs := sibs_of (ToBits (pn_index leaf)) (ap_pruned ap) (pn_level leaf)) in *.
    assert (LS : length sibs = pn_level leaf) by (apply sibs_of_length; rewrite ?ToBits_length; auto).
    destruct (path_tree OK nb (t_nonce m) x (ToBits i) (t_root m) [] sibs) as [Co|(q & s & W & P & In1 & In2 & Sh & Cs)].
    - apply I.
    - apply sibs_of_snd; auto.
    - cbn [length skipn].
      change (map (@fst bool bytes) sibs = firstn (@length (bool * bytes) sibs) (ToBits i)).
      rewrite LS. unfold sibs. rewrite sibs_of_fst by (rewrite ?ToBits_length; auto). exact PR.
    - reflexivity.
    - congruence.
    - left. exact Co.
    - right. exists q, s. simpl in *. change (@length (bool * list byte) sibs) with (@length (bool * bytes) sibs) in Cs.
      rewrite LS in Cs. split; [exact W|]. split; [exact P|].
      split; [exact In1|]. split; [|split; [exact Sh|exact Cs]].
      intros d Hd Ed. apply In2; auto. congruence.
  Qed.

  Lemma commit_of_len b : length (c_value (commit_of b)) = 32.
  Proof. apply Hlen. Qed.

  Lemma commit_input_of i b : commit_input (leaf_of i b) = b_salt b ++ b_key b ++ b_value b.
  Proof. reflexivity. Qed.

  Lemma commit_value_of b : c_value (commit_of b) = shake (b_salt b ++ b_key b ++ b_value b).
  Proof. unfold commit_of, Digest. simpl. rewrite app_nil_r. reflexivity. Qed.

  (** Depth at which an empty branch's hash input has 64 bytes. *)
  Lemma shallow_empty nb nonce q lvl idx :
    length nonce = 32 -> wf nb q (Empty lvl idx) -> shallow 208 (Empty lvl idx) ->
    length (node_pre nonce (Empty lvl idx)) <> 64.
  Proof.
    intros Ln W S E. cbn [node_pre] in E. rewrite empty_pre_length, Ln in E.
    simpl in W, S. destruct W as (-> & -> & _).
    pose proof (ToBytes_len_le 26 q ltac:(lia)). lia.
  Qed.

  Lemma honest_inclusion m f ap leaf c key v i :
    tree_inv 32 m f -> length (t_nonce m) = 32 -> shallow 208 (t_root m) ->
    (forall j b, f j = Some b -> length (b_salt b) = 32) ->
    Verify ap key v (fresh_hash (t_nonce m) (t_root m)) = Ok None ->
    ap_lookup ap = i -> length i = 32 ->
    ap_leaf ap = Some leaf -> pn_index leaf = i -> pn_empty leaf = false ->
    pn_com leaf = Some c -> length (c_salt c) = 32 -> pruned_ok ap ->
    (exists b, f i = Some b /\ b_salt b = c_salt c /\ b_key b ++ b_value b = key ++ obytes v) \/
    collision_between (verify_inputs ap key (obytes v)) (tree_inputs m).
  Proof.
    intros I Ln Sh Sa V EL Li L Ei Ee Ec Ls PO.
    pose proof (verify_inv _ _ _ _ V) as (l & x & A & X & B & D & R & K).
    rewrite L in A. injection A as <-.
    destruct K as [(_ & Ev & c' & Ec' & Evv)|(N & _)]; [|congruence].
    rewrite Ec in Ec'. injection Ec' as <-.
    rewrite (verify_inputs_eq _ _ _ _ L). unfold opening_input, tree_inputs. rewrite Ec.
    destruct (tree_path 32 m f ap key v leaf x i I V L X) as [Co|(q & s & W & P & In1 & In2 & Shs & Cs)]; auto.
    { congruence. }
    { right. eapply coll_incl; [exact Co| |]; apply incl_appl, incl_refl. }
    unfold pn_pre in X. rewrite Ee, Ec in X. injection X as X.
    destruct Cs as [[Lq Np]|(Lq & NI & N64)].
    - destruct s as [lvl idx|lvl d|lvl lh rh sl sr].
      + exfalso. cbn [node_pre] in Np. rewrite <- X in Np. exact (empty_leaf_pre_neq _ _ _ _ _ _ _ Np).
      + assert (Id : In d (leaves (t_root m))) by (apply In1; simpl; auto).
        pose proof (proj1 (ti_leaves _ _ _ I d) Id) as (j & b & Fj & Ed).
        cbn [node_pre] in Np. rewrite <- X in Np. apply leaf_pre_inj in Np.
        * destruct Np as (_ & Eidx & Ecv). rewrite Ed in Eidx, Ecv. simpl in Eidx.
          subst j. rewrite Ei in Fj.
          assert (Ecv' : shake (b_salt b ++ b_key b ++ b_value b) = shake (c_salt c ++ key ++ obytes v)).
          { rewrite <- commit_value_of. rewrite <- Evv. exact Ecv. }
          destruct (bytes_eq_dec (c_salt c ++ key ++ obytes v) (b_salt b ++ b_key b ++ b_value b)) as [Eq|Ne].
          -- left. exists b. split; auto. apply app_inj_len in Eq; [|rewrite (Sa _ _ Fj); auto].
             destruct Eq; auto.
          -- right. eapply coll_in; [| |symmetry; exact Ecv'|exact Ne].
             ++ apply in_or_app. simpl. auto.
             ++ apply in_or_app. right. rewrite <- (commit_input_of (pn_index leaf)).
                apply in_map. rewrite <- Ed. exact Id.
        * rewrite Ed, Evv, Hlen. apply commit_of_len.
        * rewrite Ed. simpl. rewrite (tree_inv_len _ _ _ _ _ I Fj). rewrite Ei. auto.
      + exfalso. apply (f_equal (@length _)) in Np. cbn [node_pre] in Np.
        rewrite app_length, !fresh_length in Np by auto. rewrite <- X, leaf_pre_length, Evv, Hlen, Ei, Li in Np. lia.
    - exfalso. destruct s as [lvl idx|lvl d|lvl lh rh sl sr].
      + exact (shallow_empty _ _ _ _ _ Ln W (Shs _ Sh) N64).
      + assert (Id : In d (leaves (t_root m))) by (apply In1; simpl; auto).
        pose proof (proj1 (ti_leaves _ _ _ I d) Id) as (j & b & Fj & Ed).
        cbn [node_pre] in N64. rewrite leaf_pre_length, Ln, Ed in N64. change (length (c_value (l_com (leaf_of j b)))) with (length (c_value (commit_of b))) in N64. rewrite commit_of_len in N64. lia.
      + exact (NI _ _ _ _ _ eq_refl).
  Qed.

  Lemma honest_absence m f ap leaf key v i :
    tree_inv 32 m f -> length (t_nonce m) = 32 ->
    Verify ap key v (fresh_hash (t_nonce m) (t_root m)) = Ok None ->
    ap_lookup ap = i -> length i = 32 ->
    ap_leaf ap = Some leaf -> pn_index leaf <> i -> absence_shape ap leaf -> pruned_ok ap ->
    f i = None \/ collision_between (verify_inputs ap key (obytes v)) (tree_inputs m).
  Proof.
    intros I Ln V EL Li L Ei SH PO.
    pose proof (verify_inv _ _ _ _ V) as (l & x & A & X & B & D & R & K).
    rewrite L in A. injection A as <-.
    destruct K as [(N & _)|(_ & _ & PR)]; [congruence|].
    rewrite (verify_inputs_eq _ _ _ _ L). unfold tree_inputs.
    destruct (tree_path 32 m f ap key v leaf x i I V L X) as [Co|(q & s & W & P & In1 & In2 & Shs & Cs)]; auto.
    { congruence. }
    { right. eapply coll_incl; [exact Co| |]; apply incl_appl, incl_refl. }
    left. destruct (f i) as [b|] eqn:F; auto. exfalso.
    assert (Ib : In (leaf_of i b) (leaves s)).
    { apply In2; auto. apply (leaf_in_tree _ _ _ _ _ I). exact F. }
    pose proof (absence_pre _ _ _ SH X) as N64.
    destruct s as [lvl idx|lvl d|lvl lh rh sl sr].
    - exact Ib.
    - destruct Ib as [->|[]].
      assert (Lp : length (node_pre (t_nonce m) (Leaf lvl (leaf_of i b))) = 101).
      { cbn [node_pre]. rewrite leaf_pre_length, Ln. cbn [leaf_of l_index l_com]. rewrite Li, commit_of_len. reflexivity. }
      destruct Cs as [[Lq Np]|(_ & _ & Np)]; [|rewrite Lp in Np; discriminate].
      destruct SH as (Lan & Lc & Le). unfold pn_pre in X. destruct (pn_empty leaf).
      + injection X as <-. cbn [node_pre] in Np. symmetry in Np. exact (empty_leaf_pre_neq _ _ _ _ _ _ _ Np).
      + destruct (pn_com leaf) as [c|]; [|discriminate]. injection X as <-.
        specialize (Lc eq_refl c eq_refl).
        rewrite Np, leaf_pre_length, Lan, Lc in Lp.
        cbn [node_pre] in Np. apply leaf_pre_inj in Np.
        * destruct Np as (_ & E & _). simpl in E. congruence.
        * rewrite Lc. apply commit_of_len.
        * simpl. lia.
    - destruct Cs as [[Lq Np]|(_ & NI & _)]; [|exact (NI _ _ _ _ _ eq_refl)].
      apply N64. rewrite <- Np. cbn [node_pre]. rewrite app_length, !fresh_length by auto. reflexivity.
  Qed.

  (** ** The root hash determines the tree *)

  Definition pair_of (d : leafdata) := (l_index d, c_value (l_com d)).

  Lemma tree_hash_inj nb nonce1 nonce2 n1 : forall pre n2,
    nb = 32 ->
    wf nb pre n1 -> wf nb pre n2 ->
    length nonce1 = 32 -> length nonce2 = 32 ->
    shallow 208 n1 -> shallow 208 n2 ->
    (forall d, In d (leaves n1) \/ In d (leaves n2) -> length (c_value (l_com d)) = 32) ->
    fresh_hash nonce1 n1 = fresh_hash nonce2 n2 ->
    collision_between (node_inputs nonce1 n1) (node_inputs nonce2 n2) \/
    (nonce1 = nonce2 /\ map pair_of (leaves n1) = map pair_of (leaves n2)).
  Proof.
    induction n1 as [lvl i|lvl d|lvl lh rh l IHl r IHr]; intros pre n2 Hnb W1 W2 L1 L2 S1 S2 Lc E;
      subst nb; rewrite !fresh_pre in E;
      (destruct (eq_or_coll (node_inputs nonce1 _) (node_inputs nonce2 n2) _ _
         (node_pre_in _ _) (node_pre_in _ _) E) as [Co|Eq]; [left; exact Co|]).
    - destruct n2 as [lvl2 i2|lvl2 d2|lvl2 lh2 rh2 l2 r2].
      + simpl in W1, W2. destruct W1 as (-> & -> & _), W2 as (-> & -> & _).
        cbn [node_pre] in Eq. apply empty_pre_inj in Eq; auto. right. split; tauto.
      + exfalso. exact (empty_leaf_pre_neq _ _ _ _ _ _ _ Eq).
      + exfalso. apply (shallow_empty _ nonce1 _ _ _ L1 W1 S1). rewrite Eq. cbn [node_pre].
        rewrite app_length, !fresh_length by auto. reflexivity.
    - destruct n2 as [lvl2 i2|lvl2 d2|lvl2 lh2 rh2 l2 r2].
      + exfalso. symmetry in Eq. exact (empty_leaf_pre_neq _ _ _ _ _ _ _ Eq).
      + cbn [node_pre] in Eq. apply leaf_pre_inj in Eq.
        * right. destruct Eq as (-> & A & B). split; auto. simpl. unfold pair_of. congruence.
        * rewrite !Lc; simpl; auto.
        * simpl in W1, W2. destruct W1 as (_ & -> & _), W2 as (_ & -> & _). reflexivity.
      + exfalso. apply (f_equal (@length _)) in Eq. cbn [node_pre] in Eq.
        rewrite app_length, !fresh_length, leaf_pre_length, L1 in Eq by auto.
        rewrite Lc in Eq by (simpl; auto). lia.
    - destruct n2 as [lvl2 i2|lvl2 d2|lvl2 lh2 rh2 l2 r2].
      + exfalso. apply (shallow_empty _ nonce2 _ _ _ L2 W2 S2). rewrite <- Eq. cbn [node_pre].
        rewrite app_length, !fresh_length by auto. reflexivity.
      + exfalso. apply (f_equal (@length _)) in Eq. cbn [node_pre] in Eq.
        rewrite app_length, !fresh_length, leaf_pre_length, L2 in Eq by auto.
        rewrite Lc in Eq by (simpl; auto). lia.
      + cbn [node_pre] in Eq. apply app_inj_len in Eq; [|rewrite !fresh_length; auto].
        destruct Eq as [El Er]. simpl in W1, W2, S1, S2.
        destruct W1 as (_ & _ & Wl1 & Wr1), W2 as (_ & _ & Wl2 & Wr2), S1 as [Sl1 Sr1], S2 as [Sl2 Sr2].
        simpl in Lc.
        destruct (IHl _ l2 eq_refl Wl1 Wl2 L1 L2 Sl1 Sl2) as [Co|[En Al]]; auto.
        { intros z Hz. apply Lc. rewrite !in_app_iff. tauto. }
        { left. eapply coll_incl; [exact Co| |]; apply node_inputs_incl; left; eauto. }
        destruct (IHr _ r2 eq_refl Wr1 Wr2 L1 L2 Sr1 Sr2) as [Co|[_ Ar]]; auto.
        { intros z Hz. apply Lc. rewrite !in_app_iff. tauto. }
        { left. eapply coll_incl; [exact Co| |]; apply node_inputs_incl; right; eauto. }
        right. split; auto. simpl. rewrite !map_app. congruence.
  Qed.

  Lemma trees_agree m1 m2 f1 f2 :
    tree_inv 32 m1 f1 -> tree_inv 32 m2 f2 ->
    length (t_nonce m1) = 32 -> length (t_nonce m2) = 32 ->
    shallow 208 (t_root m1) -> shallow 208 (t_root m2) ->
    (forall j b, f1 j = Some b -> length (b_salt b) = 32) ->
    (forall j b, f2 j = Some b -> length (b_salt b) = 32) ->
    fresh_hash (t_nonce m1) (t_root m1) = fresh_hash (t_nonce m2) (t_root m2) ->
    collision_between (tree_inputs m1) (tree_inputs m2) \/
    (t_nonce m1 = t_nonce m2 /\
     forall i, match f1 i, f2 i with
               | Some b1, Some b2 => b_salt b1 = b_salt b2 /\
                    b_key b1 ++ b_value b1 = b_key b2 ++ b_value b2
               | None, None => True
               | _, _ => False
               end).
  Proof.
    intros I1 I2 L1 L2 S1 S2 A1 A2 E. unfold tree_inputs.
    destruct (tree_hash_inj 32 _ _ (t_root m1) [] (t_root m2) eq_refl (ti_wf _ _ _ I1) (ti_wf _ _ _ I2) L1 L2 S1 S2) as [Co|[En Em]]; auto.
    { intros d [H|H]; [apply (ti_leaves _ _ _ I1) in H|apply (ti_leaves _ _ _ I2) in H];
        destruct H as (j & b & _ & ->); apply Hlen. }
    { left. eapply coll_incl; [exact Co| |]; apply incl_appl, incl_refl. }
    (* decide whether any opened commitment collides *)
    assert (G : forall n1 n2 : list leafdata, map pair_of n1 = map pair_of n2 ->
       (forall d, In d n1 -> c_value (l_com d) = shake (commit_input d)) ->
       (forall d, In d n2 -> c_value (l_com d) = shake (commit_input d)) ->
       collision_between (map commit_input n1) (map commit_input n2) \/
       Forall2 (fun d1 d2 => l_index d1 = l_index d2 /\ commit_input d1 = commit_input d2) n1 n2).
    { induction n1 as [|d1 n1 IH]; destruct n2 as [|d2 n2]; simpl; intros P H1 H2; try discriminate.
      - right. constructor.
      - injection P as P1 P2 P3.
        destruct (IH n2 P3) as [Co|F]; [auto|auto| |].
        + left. eapply coll_incl; [exact Co| |]; intros z Hz; simpl; auto.
        + destruct (bytes_eq_dec (commit_input d1) (commit_input d2)) as [Eq|Ne].
          * right. constructor; auto.
          * left. eapply coll_in; [left; reflexivity|left; reflexivity| |exact Ne].
            rewrite <- H1, <- H2; auto. }
    destruct (G _ _ Em) as [Co|F].
    - intros d H. apply (ti_leaves _ _ _ I1) in H. destruct H as (j & b & _ & ->). apply commit_value_of.
    - intros d H. apply (ti_leaves _ _ _ I2) in H. destruct H as (j & b & _ & ->). apply commit_value_of.
    - left. eapply coll_incl; [exact Co| |]; apply incl_appr, incl_refl.
    - right. split; auto. intro i.
      assert (F1 : forall d, In d (leaves (t_root m1)) -> exists d', In d' (leaves (t_root m2)) /\ l_index d = l_index d' /\ commit_input d = commit_input d').
      { clear - F. induction F; simpl; intros d []; subst; eauto. destruct (IHF _ H0) as (d' & ? & ?). eauto. }
      assert (F2 : forall d, In d (leaves (t_root m2)) -> exists d', In d' (leaves (t_root m1)) /\ l_index d' = l_index d).
      { clear - F. induction F; simpl; intros d []; subst; [exists x; tauto|]. destruct (IHF _ H0) as (d' & ? & ?). eauto. }
      destruct (f1 i) as [b1|] eqn:E1.
      + destruct (F1 (leaf_of i b1)) as (d' & Hd & Ei & Eb); [apply (leaf_in_tree _ _ _ _ _ I1); auto|].
        apply (ti_leaves _ _ _ I2) in Hd. destruct Hd as (j & b2 & Fj & ->). simpl in Ei. subst j. rewrite Fj.
        rewrite !commit_input_of in Eb. apply app_inj_len in Eb; auto. rewrite (A1 _ _ E1), (A2 _ _ Fj). reflexivity.
      + destruct (f2 i) as [b2|] eqn:E2; auto.
        destruct (F2 (leaf_of i b2)) as (d' & Hd & Ei); [apply (leaf_in_tree _ _ _ _ _ I2); auto|].
        apply (ti_leaves _ _ _ I1) in Hd. destruct Hd as (j & b & Fj & ->). simpl in Ei. congruence.
  Qed.
End Verify.
