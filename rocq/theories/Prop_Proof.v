(** Soundness of authentication paths (C11-C14) and of commitments (C48).

    The paths are arbitrary: everything in an [AuthPath] is chosen by a
    malicious server.  [collision_between xs ys] exhibits [x] in [xs] and [y]
    in [ys], different, with the same hash; the lists are the inputs hashed by
    [Verify] on a path ([verify_inputs]) or by the tree ([tree_inputs]). *)
From Coq Require Import List NArith Lia Bool Arith.
From Verif Require Import Base Utils Crypto Tree TreeSpec TreeFacts TreeHist PathFacts SoundFacts TreeMain Prop_Tree.
Import ListNotations.

(** ** C11 *)
(** Corrected statement: the verifier would also have to require IsEmpty =
    false and salts of one length. *)
Theorem C11_inclusion_binds : forall (C : Crypto), CryptoOk C ->
  forall ap1 ap2 leaf1 leaf2 c1 c2 key v1 v2 root,
  Verify ap1 key v1 root = Ok None -> Verify ap2 key v2 root = Ok None ->
  ap_lookup ap1 = ap_lookup ap2 -> length (ap_lookup ap1) = 32 ->
  ap_leaf ap1 = Some leaf1 -> ap_leaf ap2 = Some leaf2 ->
  ProofType ap1 = Ok ProofOfInclusion -> ProofType ap2 = Ok ProofOfInclusion ->
  pn_empty leaf1 = false -> pn_empty leaf2 = false ->
  pn_com leaf1 = Some c1 -> pn_com leaf2 = Some c2 ->
  length (c_salt c1) = length (c_salt c2) ->
  pruned_ok ap1 -> pruned_ok ap2 ->
  obytes v1 = obytes v2 \/
  collision_between (verify_inputs ap1 key (obytes v1)) (verify_inputs ap2 key (obytes v2)).
Proof.
  intros C OK ap1 ap2 leaf1 leaf2 c1 c2 key v1 v2 root V1 V2 E L L1 L2 P1 P2 E1 E2 C1 C2 S O1 O2.
  unfold ProofType in P1, P2. rewrite L1 in P1. rewrite L2 in P2.
  destruct (beq_spec (ap_lookup ap1) (pn_index leaf1)); [|discriminate].
  destruct (beq_spec (ap_lookup ap2) (pn_index leaf2)); [|discriminate].
  exact (inclusion_binding OK ap1 ap2 leaf1 leaf2 c1 c2 key v1 v2 root V1 V2 E L L1 L2 (eq_sym e) (eq_sym e0) E1 E2 C1 C2 S O1 O2).
Qed.
Print Assumptions C11_inclusion_binds.

(** [Verify] ignores IsEmpty when it decides "inclusion", and the hash of an
    empty node ignores the commitment: one root proves every value of every key
    for an index, for every hash function. *)
Definition forged_empty {C : Crypto} (i key v : bytes) : AuthPath :=
  mkAP [] [] i [] (Some (mkPN 0 i (Some v) true (Some (mkCommit [] (Digest [[]; key; v]))))).
Theorem C11_is_empty_flag_refuted : forall (C : Crypto) i key v1 v2,
  let root := shake (empty_pre [] i 0) in
  ap_lookup (forged_empty i key v1) = ap_lookup (forged_empty i key v2) /\
  ProofType (forged_empty i key v1) = Ok ProofOfInclusion /\
  ProofType (forged_empty i key v2) = Ok ProofOfInclusion /\
  Verify (forged_empty i key v1) key (Some v1) root = Ok None /\
  Verify (forged_empty i key v2) key (Some v2) root = Ok None.
Proof.
  intros C i key v1 v2 root. split; [reflexivity|].
  assert (P : forall v, ProofType (forged_empty i key v) = Ok ProofOfInclusion).
  { intro v. unfold ProofType, forged_empty. simpl. rewrite beq_refl. reflexivity. }
  assert (V : forall v, Verify (forged_empty i key v) key (Some v) root = Ok None).
  { intro v. unfold Verify. rewrite P. unfold forged_empty. simpl. rewrite beq_refl. simpl.
    unfold Commit_Verify. simpl. rewrite beq_refl. unfold authPathHash, pn_hash. simpl.
    unfold root. rewrite beq_refl. reflexivity. }
  auto.
Qed.
Print Assumptions C11_is_empty_flag_refuted.

(** Even with IsEmpty = false: the length of the salt is not checked, so bytes
    move between salt and value. *)
Definition forged_salt {C : Crypto} (i salt key v whole : bytes) : AuthPath :=
  mkAP [] [] i [] (Some (mkPN 0 i (Some v) false (Some (mkCommit salt (shake whole))))).
Theorem C11_salt_length_refuted : forall (C : Crypto) i salt key x v,
  let whole := salt ++ key ++ x ++ key ++ v in
  let ap1 := forged_salt i salt key (x ++ key ++ v) whole in
  let ap2 := forged_salt i (salt ++ key ++ x) key v whole in
  let root := shake (leaf_pre [] i 0 (shake whole)) in
  ap_lookup ap1 = ap_lookup ap2 /\
  ProofType ap1 = Ok ProofOfInclusion /\ ProofType ap2 = Ok ProofOfInclusion /\
  Verify ap1 key (Some (x ++ key ++ v)) root = Ok None /\
  Verify ap2 key (Some v) root = Ok None.
Proof.
  intros C i salt key x v whole ap1 ap2 root. split; [reflexivity|].
  assert (P : forall s w, ProofType (forged_salt i s key w whole) = Ok ProofOfInclusion).
  { intros s w. unfold ProofType, forged_salt. simpl. rewrite beq_refl. reflexivity. }
  assert (V : forall s w, s ++ key ++ w = whole -> Verify (forged_salt i s key w whole) key (Some w) root = Ok None).
  { intros s w E. unfold Verify. rewrite P. unfold forged_salt. simpl. rewrite beq_refl. simpl.
    unfold Commit_Verify, Digest. simpl. rewrite app_nil_r, E, beq_refl. unfold authPathHash, pn_hash. simpl.
    unfold root. rewrite beq_refl. reflexivity. }
  split; [apply P|]. split; [apply P|]. split; apply V; unfold whole; rewrite <- ?app_assoc; reflexivity.
Qed.
Print Assumptions C11_salt_length_refuted.

(** ** C12 *)
Theorem C12_not_both : forall (C : Crypto), CryptoOk C ->
  forall ap1 ap2 leaf1 leaf2 key v1 v2 root,
  Verify ap1 key v1 root = Ok None -> Verify ap2 key v2 root = Ok None ->
  ap_lookup ap1 = ap_lookup ap2 -> length (ap_lookup ap1) = 32 ->
  ap_leaf ap1 = Some leaf1 -> ap_leaf ap2 = Some leaf2 ->
  ProofType ap1 = Ok ProofOfInclusion -> ProofType ap2 = Ok ProofOfAbsence ->
  pn_empty leaf1 = false -> length (ap_nonce ap1) = 32 -> absence_shape ap2 leaf2 ->
  pruned_ok ap1 -> pruned_ok ap2 ->
  collision_between (verify_inputs ap1 key (obytes v1)) (verify_inputs ap2 key (obytes v2)).
Proof.
  intros C OK ap1 ap2 leaf1 leaf2 key v1 v2 root V1 V2 E L L1 L2 P1 P2 E1 N1 SH O1 O2.
  unfold ProofType in P1, P2. rewrite L1 in P1. rewrite L2 in P2.
  destruct (beq_spec (ap_lookup ap1) (pn_index leaf1)); [|discriminate].
  destruct (beq_spec (ap_lookup ap2) (pn_index leaf2)); [discriminate|].
  exact (inclusion_absence_exclusive OK ap1 ap2 leaf1 leaf2 key v1 v2 root V1 V2 E L L1 L2 (eq_sym e) (not_eq_sym n) E1 N1 SH O1 O2).
Qed.
Print Assumptions C12_not_both.

(** Without the length checks: the nonce absorbs the first byte of the index,
    and one root proves both, for every hash function and non-empty leaves. *)
Theorem C12_nonce_length_refuted : forall (C : Crypto) b j key v,
  let i := b :: j in
  let cv := Digest [[]; key; v] in
  let ap1 := mkAP [] [] i [] (Some (mkPN 0 i (Some v) false (Some (mkCommit [] cv)))) in
  let ap2 := mkAP [b] [] i [] (Some (mkPN 0 j None false (Some (mkCommit [] cv)))) in
  let root := shake (leaf_pre [] i 0 cv) in
  ProofType ap1 = Ok ProofOfInclusion /\ ProofType ap2 = Ok ProofOfAbsence /\
  Verify ap1 key (Some v) root = Ok None /\ Verify ap2 key None root = Ok None.
Proof.
  intros C b j key v i cv ap1 ap2 root.
  assert (P1 : ProofType ap1 = Ok ProofOfInclusion) by (unfold ProofType, ap1; cbn [ap_leaf ap_lookup pn_index]; rewrite beq_refl; reflexivity).
  assert (P2 : ProofType ap2 = Ok ProofOfAbsence).
  { unfold ProofType, ap2. cbn [ap_leaf ap_lookup pn_index].
    destruct (beq_spec i j) as [X|]; [|reflexivity]. apply (f_equal (@length _)) in X. simpl in X. lia. }
  split; auto. split; auto. unfold Verify. rewrite P1, P2. split.
  - unfold ap1. cbn [ap_leaf bind obytes pn_value pn_com negb]. rewrite beq_refl. cbn [negb].
    unfold Commit_Verify. cbn [c_value c_salt]. unfold cv at 1. rewrite beq_refl.
    unfold authPathHash, pn_hash. cbn. unfold root. rewrite beq_refl. reflexivity.
  - unfold ap2. cbn [ap_leaf bind pn_level match_bits pn_value].
    unfold authPathHash, pn_hash. cbn. unfold root, leaf_pre. cbn. rewrite beq_refl. reflexivity.
Qed.
Print Assumptions C12_nonce_length_refuted.

(** ** C13 *)
Theorem C13_inclusion_truthful : forall (C : Crypto), CryptoOk C ->
  forall r0 ops m ap leaf c key v,
  built 32 r0 ops m -> spread 208 (fun j => last_set ops j <> None) ->
  Verify ap key v (t_hash (recomputeHash m)) = Ok None ->
  ProofType ap = Ok ProofOfInclusion -> length (ap_lookup ap) = 32 ->
  ap_leaf ap = Some leaf -> pn_empty leaf = false ->
  pn_com leaf = Some c -> length (c_salt c) = 32 -> pruned_ok ap ->
  (exists b, last_set ops (ap_lookup ap) = Some b /\ b_key b ++ b_value b = key ++ obytes v /\
     (length key = length (b_key b) -> key = b_key b /\ obytes v = b_value b)) \/
  collision_between (verify_inputs ap key (obytes v)) (tree_inputs m).
Proof.
  intros C OK r0 ops m ap leaf c key v B S V PT L AL Ee Ec Ls PO.
  destruct (built_inv OK _ _ _ _ B) as (Ln & I & Sa & _).
  destruct (rehash_inv 32 _ _ I) as (_ & _ & Hh & _). rewrite Hh in V.
  unfold ProofType in PT. rewrite AL in PT. destruct (beq_spec (ap_lookup ap) (pn_index leaf)) as [e|]; [|discriminate].
  destruct (honest_inclusion OK m (last_set ops) ap leaf c key v (ap_lookup ap)) as [(b & F & _ & E)|Co]; auto.
  - apply (tree_shallow 32 m _ 208 I); auto. lia.
  - left. exists b. split; auto. split; auto. intro X. symmetry in E. apply app_inj_len in E; auto.
Qed.
Print Assumptions C13_inclusion_truthful.

Theorem C13_absence_truthful : forall (C : Crypto), CryptoOk C ->
  forall r0 ops m ap leaf key v,
  built 32 r0 ops m ->
  Verify ap key v (t_hash (recomputeHash m)) = Ok None ->
  ProofType ap = Ok ProofOfAbsence -> length (ap_lookup ap) = 32 ->
  ap_leaf ap = Some leaf -> absence_shape ap leaf -> pruned_ok ap ->
  last_set ops (ap_lookup ap) = None \/
  collision_between (verify_inputs ap key (obytes v)) (tree_inputs m).
Proof.
  intros C OK r0 ops m ap leaf key v B V PT L AL SH PO.
  destruct (built_inv OK _ _ _ _ B) as (Ln & I & Sa & _).
  destruct (rehash_inv 32 _ _ I) as (_ & _ & Hh & _). rewrite Hh in V.
  unfold ProofType in PT. rewrite AL in PT. destruct (beq_spec (ap_lookup ap) (pn_index leaf)) as [e|]; [discriminate|].
  apply (honest_absence OK m (last_set ops) ap leaf key v (ap_lookup ap)); auto.
Qed.
Print Assumptions C13_absence_truthful.

(** The salt hypothesis is needed even against an honest tree: if the stored
    value contains the key, its suffix can be passed off as the value. *)
Definition ex_suffix_ops : list tree_op := [TSet (Some [x01]) ex_i1 [x61] [x10; x61; x31]].
Theorem C13_salt_length_refuted :
  exists (C : Crypto), CryptoOk C /\ exists r0 ops m ap key v,
    built 32 r0 ops m /\ ProofType ap = Ok ProofOfInclusion /\ ap_lookup ap = ex_i1 /\
    Verify ap key (Some v) (t_hash (recomputeHash m)) = Ok None /\
    option_map b_value (last_set ops ex_i1) <> Some v.
Proof.
  exists ToyCrypto. split; [exact ToyCrypto_ok|].
  pose (forge := fun (m : MerkleTree) => match Get m ex_i1 with
    | Ok ap => match ap_leaf ap with
               | Some leaf => match pn_com leaf with
                 | Some c => Some (mkAP (ap_nonce ap) (ap_pruned ap) (ap_lookup ap) (ap_vrf ap)
                     (Some (mkPN (pn_level leaf) (pn_index leaf) (Some [x31]) false
                        (Some (mkCommit (c_salt c ++ [x61; x10]) (c_value c))))))
                 | None => None end
               | None => None end
    | Panic => None end).
  assert (H : match @run_tree ToyCrypto (mkTree (@Digest ToyCrypto [[]]) (newInteriorNode 0 []) []) ex_suffix_ops with
     | Ok m => match forge (@recomputeHash ToyCrypto m) with
        | Some ap => match ProofType ap, @Verify ToyCrypto ap [x61] (Some [x31]) (t_hash (@recomputeHash ToyCrypto m)) with
            | Ok ProofOfInclusion, Ok None => beq (ap_lookup ap) ex_i1 | _, _ => false end
        | None => false end
     | Panic => false end = true) by (vm_compute; reflexivity).
  destruct (run_tree _ _) as [m|] eqn:E; [|discriminate H].
  destruct (forge _) as [ap|] eqn:F; [|discriminate H].
  destruct (ProofType ap) as [[|]|] eqn:PT; try discriminate H.
  destruct (Verify ap [x61] (Some [x31]) _) as [[|]|] eqn:V; try discriminate H.
  exists (Some []), ex_suffix_ops, m, ap, [x61], [x31].
  split; [split; [lia|split; [repeat constructor|]]|].
  { eexists. split; [reflexivity|exact E]. }
  split; [exact PT|]. split; [apply beq_eq; exact H|]. split; [exact V|]. discriminate.
Qed.
Print Assumptions C13_salt_length_refuted.

(** Non-vacuity of C11, C13: a proof produced by [Get] meets the hypotheses. *)
Example C13_nonvacuous : exists m ap leaf c, @built ToyCrypto 32 (Some [x07]) ex_ops m /\
  Get (@recomputeHash ToyCrypto m) ex_i1 = Ok ap /\
  @Verify ToyCrypto ap [x61] (Some [x33]) (t_hash (@recomputeHash ToyCrypto m)) = Ok None /\
  ProofType ap = Ok ProofOfInclusion /\ length (ap_lookup ap) = 32 /\
  ap_leaf ap = Some leaf /\ pn_empty leaf = false /\
  pn_com leaf = Some c /\ length (c_salt c) = 32 /\ pruned_ok ap.
Proof.
  destruct C01_nonvacuous as (m & B & F & _ & S).
  destruct (C04_proofs_verify ToyCrypto ToyCrypto_ok 32 _ _ m ex_i1 B eq_refl) as (ap & leaf & G & AL & M).
  destruct (built_inv ToyCrypto_ok _ _ _ _ B) as (_ & I & _).
  destruct (rehash_inv 32 _ _ I) as (I' & _).
  destruct (get_inv ToyCrypto_ok 32 _ _ ex_i1 I' eq_refl) as (ap' & leaf' & G' & AL' & _ & LK & _ & Fp & _ & _ & M' & _).
  rewrite G in G'. injection G' as <-. rewrite AL in AL'. injection AL' as <-.
  remember (last_set ex_ops ex_i1) as o eqn:Eo. vm_compute in Eo. subst o. cbn [b_key b_value] in M, M'.
  destruct M as (PT & _ & V).
  exists m, ap, leaf. eexists. split; [exact B|]. split; [exact G|]. split; [exact V|]. split; [exact PT|].
  split; [rewrite LK; reflexivity|]. split; [exact AL|]. rewrite M'. split; [reflexivity|].
  split; [reflexivity|]. split; [reflexivity|exact Fp].
Qed.

(** ** C14 *)
Theorem C14_no_panic_on_well_shaped : forall (C : Crypto) ap key v root,
  shape_ok ap -> Verify ap key v root <> Panic.
Proof. intros C. exact verify_no_panic. Qed.
Print Assumptions C14_no_panic_on_well_shaped.
(** Every path produced by this code is well-shaped, as long as no absent index
    is shown as included (C01). *)
Theorem C14_get_is_well_shaped : forall (C : Crypto), CryptoOk C ->
  forall nb r0 ops m i ap, built nb r0 ops m -> 1 < nb -> length i = nb -> 
  spread (8 * (nb - 1)) (fun j => last_set ops j <> None) ->
  Get m i = Ok ap -> shape_ok ap.
Proof.
  intros C OK nb r0 ops m i ap B P L S G. destruct (built_inv OK _ _ _ _ B) as (_ & I & _).
  destruct (get_inv OK nb m _ i I L) as (ap' & leaf & G' & AL & AN & LK & Lp & Fp & Lv & PR & M & _).
  rewrite G in G'. injection G' as <-. exists leaf. split; [exact AL|].
  split; [apply (f_equal (@length _)) in PR; rewrite !firstn_length, !ToBits_length, L in PR; lia|].
  split; [rewrite LK, L; lia|]. split; [lia|].
  intro N. destruct (last_set ops i) as [b|] eqn:F; [rewrite M in N; discriminate|].
  destruct M as (_ & [(E & _)|(_ & _ & b & _ & Ec)]); [|congruence]. split; [exact E|]. rewrite LK.
  exact (absent_index OK nb m _ i ap leaf P I L F S G AL).
Qed.
Print Assumptions C14_get_is_well_shaped.
(** Paths on which [Verify] crashes, each decodable from JSON: no leaf; no
    commitment; too few sibling hashes; a level beyond the index. *)
Theorem C14_malformed_paths_panic_refuted : forall (C : Crypto) i j key root, length i = 32 -> length j = 32 -> i <> j ->
  Verify (mkAP [] [] i [] None) key None root = Panic /\
  Verify (mkAP [] [] i [] (Some (mkPN 0 i None true None))) key None root = Panic /\
  Verify (mkAP [] [] i [] (Some (mkPN 0 j None false None))) key None root = Panic /\
  Verify (mkAP [] [] i [] (Some (mkPN 1 i (Some []) false (Some (mkCommit [] (Digest [[]; key; []])))))) key None root = Panic /\
  (forall pruned, Verify (mkAP [] pruned i [] (Some (mkPN 257 i (Some []) false (Some (mkCommit [] (Digest [[]; key; []])))))) key None root = Panic).
Proof.
  intros C i j key root Li Lj N. split; [reflexivity|].
  split; [unfold Verify, ProofType; simpl; rewrite beq_refl; reflexivity|].
  split; [unfold Verify, ProofType; simpl; destruct (beq_spec i j); [congruence|reflexivity]|].
  assert (G : forall l pruned h, length pruned <= l \/ 256 <= l -> aph_loop (ToBits i) pruned (S l) h = Panic).
  { intros l pruned h H. cbn [aph_loop]. destruct (index (ToBits i) l) eqn:X; [|reflexivity]. cbn [bind].
    destruct H as [H|H]; [rewrite (proj2 (index_panic pruned l) H); reflexivity|].
    exfalso. apply index_ok, nth_error_lt in X. rewrite ToBits_length in X. lia. }
  assert (W : forall l pruned, length pruned <= l \/ 256 <= l -> Verify (mkAP [] pruned i [] (Some (mkPN (S l) i (Some []) false
      (Some (mkCommit [] (Digest [[]; key; []])))))) key None root = Panic).
  { intros l pruned Hl. unfold Verify, ProofType. cbn [ap_leaf ap_lookup pn_index]. rewrite beq_refl.
    cbn [bind pn_value pn_com obytes beq negb].
    unfold Commit_Verify. cbn [c_value c_salt]. rewrite beq_refl. unfold authPathHash, pn_hash, pn_pre.
    cbn [pn_empty bind pn_level pn_com ap_pruned pn_index]. rewrite G by exact Hl. reflexivity. }
  split; [apply W; simpl; lia|]. intro pruned. apply (W 256). lia.
Qed.
Print Assumptions C14_malformed_paths_panic_refuted.

(** ** C48 *)
Theorem C48_commit_complete : forall (C : Crypto) r stuff c,
  NewCommit r stuff = Some c -> Commit_Verify c stuff = true.
Proof.
  intros C r stuff c H. unfold NewCommit in H. destruct (MakeRand r); [|discriminate].
  injection H as <-. unfold Commit_Verify. simpl. apply beq_refl.
Qed.
Print Assumptions C48_commit_complete.
Theorem C48_commit_binding : forall (C : Crypto) c1 c2 key v1 v2,
  c_value c1 = c_value c2 -> length (c_salt c1) = length (c_salt c2) ->
  Commit_Verify c1 [key; v1] = true -> Commit_Verify c2 [key; v2] = true ->
  (v1 = v2 /\ c_salt c1 = c_salt c2) \/
  is_collision (c_salt c1 ++ key ++ v1) (c_salt c2 ++ key ++ v2).
Proof.
  intros C c1 c2 key v1 v2 E L V1 V2. unfold Commit_Verify in *. apply beq_eq in V1, V2.
  unfold Digest in *. simpl in V1, V2. rewrite app_nil_r in V1, V2.
  destruct (bytes_eq_dec (c_salt c1 ++ key ++ v1) (c_salt c2 ++ key ++ v2)) as [Eq|Ne].
  - left. apply app_inj_len in Eq; auto. destruct Eq as [-> Eq]. apply app_inj_len in Eq; tauto.
  - right. split; congruence.
Qed.
Print Assumptions C48_commit_binding.
(** With salts of different lengths one commitment opens to two values, and
    the boundary between key and value is not committed to. *)
Theorem C48_salt_length_refuted : forall (C : Crypto) salt key x v,
  let cv := shake (salt ++ key ++ x ++ key ++ v) in
  Commit_Verify (mkCommit salt cv) [key; x ++ key ++ v] = true /\
  Commit_Verify (mkCommit (salt ++ key ++ x) cv) [key; v] = true.
Proof.
  intros C salt key x v cv. unfold Commit_Verify, Digest. simpl. rewrite !app_nil_r, <- !app_assoc.
  split; apply beq_refl.
Qed.
Print Assumptions C48_salt_length_refuted.
Theorem C48_key_value_boundary_refuted : forall (C : Crypto) salt k1 k2 v,
  Commit_Verify (mkCommit salt (Digest [salt; k1 ++ k2; v])) [k1; k2 ++ v] = true.
Proof.
  intros C salt k1 k2 v. unfold Commit_Verify, Digest. simpl. rewrite !app_nil_r, <- !app_assoc. apply beq_refl.
Qed.
Print Assumptions C48_key_value_boundary_refuted.
Example C48_nonvacuous : exists c, @NewCommit ToyCrypto (Some [x01]) [[x61]; [x62]] = Some c /\
  @Commit_Verify ToyCrypto c [[x61]; [x62]] = true /\ @Commit_Verify ToyCrypto c [[x61]; [x63]] = false.
Proof. eexists. split; [reflexivity|]. vm_compute. split; reflexivity. Qed.
