(** Properties of the Merkle prefix tree (C01-C06, C08, C09, C46).

    Reading guide.  [built nb r0 ops m]: [m] results from a fresh tree (entropy
    [r0]) by the calls [ops] ([TSet entropy index key value], [TRehash]), all
    indices having [nb] bytes.  [last_set ops i]: the last successful [Set] on
    [i].  [spread k S]: the indices in [S] pairwise differ in their first [k]
    bits.  All of these are in [TreeSpec.v]. *)
From Coq Require Import List NArith Lia Bool Arith.
From Verif Require Import Base Utils Crypto Tree TreeSpec TreeFacts CloneFacts TreeHist PathFacts SoundFacts TreeMain.
Import ListNotations.

(** ** C01 *)
Theorem C01_tree_is_a_map : forall (C : Crypto), CryptoOk C ->
  forall nb r0 ops m i, built nb r0 ops m -> length i = nb ->
  exists ap leaf, Get m i = Ok ap /\ ap_leaf ap = Some leaf /\ ap_lookup ap = i /\ ap_nonce ap = t_nonce m /\
    match last_set ops i with
    | Some b => pn_index leaf = i /\ pn_value leaf = Some (b_value b) /\ pn_empty leaf = false /\
                pn_com leaf = Some (mkCommit (b_salt b) (Digest [b_salt b; b_key b; b_value b]))
    | None => pn_value leaf = None /\
        ((* an empty branch; it carries the looked-up index only below level 8*(nb-1) *)
         (pn_empty leaf = true /\ pn_com leaf = None /\
          (pn_index leaf = i -> 8 * (nb - 1) < pn_level leaf)) \/
         (* another user's leaf, without value and salt *)
         (pn_empty leaf = false /\ pn_index leaf <> i /\
          exists b, last_set ops (pn_index leaf) = Some b /\
            pn_com leaf = Some (mkCommit [] (Digest [b_salt b; b_key b; b_value b]))))
    end.
Proof.
  intros C OK nb r0 ops m i B L. pose proof B as (P & _). destruct (built_inv OK _ _ _ _ B) as (_ & I & _).
  destruct (get_inv OK nb m _ i I L) as (ap & leaf & G & AL & AN & LK & Lp & Fp & Lv & PR & M & _).
  exists ap, leaf. do 4 (split; [assumption|]). destruct (last_set ops i) as [b|].
  - rewrite M. repeat split; reflexivity.
  - destruct M as (Ev & [(E1 & E2 & E3 & _)|(E1 & E2 & b & Fb & Ec)]); (split; [exact Ev|]).
    + left. split; auto. split; auto. intro X. rewrite X in E3. symmetry in E3.
      destruct (empty_index_deep nb i (pn_level leaf) L ltac:(lia) E3); lia.
    + right. split; auto. split; auto. exists b. split; auto.
Qed.
Print Assumptions C01_tree_is_a_map.

(** When stored indices differ within the first [8*(nb-1)] bits (248 of 256),
    a lookup of an index that was never set never shows that index. *)
Theorem C01_absent_index_never_shown : forall (C : Crypto), CryptoOk C ->
  forall nb r0 ops m i ap leaf, built nb r0 ops m -> 1 < nb -> length i = nb ->
  spread (8 * (nb - 1)) (fun j => last_set ops j <> None) ->
  last_set ops i = None ->
  Get m i = Ok ap -> ap_leaf ap = Some leaf ->
  pn_index leaf <> i /\ ProofType ap = Ok ProofOfAbsence.
Proof.
  intros C OK nb r0 ops m i ap leaf B P L S F G AL. destruct (built_inv OK _ _ _ _ B) as (_ & I & _).
  assert (N : pn_index leaf <> i) by exact (absent_index OK nb m _ i ap leaf P I L F S G AL).
  split; auto. unfold ProofType. rewrite AL.
  assert (LK : ap_lookup ap = i).
  { unfold Get in G. destruct (get_loop _ _ _ _) as [[? ?]|]; cbn [bind] in G; [|discriminate].
    destruct (proof_leaf _ _); cbn [bind] in G; [|discriminate]. injection G as <-. reflexivity. }
  rewrite LK. destruct (beq_spec i (pn_index leaf)); congruence.
Qed.
Print Assumptions C01_absent_index_never_shown.

(** The side condition is needed: in the corner case the code answers a lookup
    of an index that was never set with what [ProofType] calls a proof of
    inclusion (and [Verify] then panics on the missing commitment). *)
Definition deep1 : bytes := repeat x00 31 ++ [x02].
Definition deep2 : bytes := repeat x00 31 ++ [x03].
Definition deep3 : bytes := repeat x00 31 ++ [x80].
Definition deep_ops : list tree_op :=
  [TSet (Some []) deep1 [] []; TSet (Some []) deep2 [] []; TRehash].
Theorem C01_absent_shown_as_included_refuted :
  exists (C : Crypto), CryptoOk C /\ exists r0 ops m i ap,
    built 32 r0 ops m /\ length i = 32 /\ last_set ops i = None /\ Get m i = Ok ap /\
    ProofType ap = Ok ProofOfInclusion /\ Verify ap [] None (t_hash m) = Panic.
Proof.
  exists ToyCrypto. split; [exact ToyCrypto_ok|].
  assert (H : match @run_tree ToyCrypto (mkTree (@Digest ToyCrypto [[]]) (newInteriorNode 0 []) []) deep_ops with
              | Ok m => match Get m deep3 with
                        | Ok ap => match ProofType ap, @Verify ToyCrypto ap [] None (t_hash m) with
                                   | Ok ProofOfInclusion, Panic => true | _, _ => false end
                        | Panic => false end
              | Panic => false end = true) by (vm_compute; reflexivity).
  destruct (run_tree _ _) as [m|] eqn:E; [|discriminate H].
  destruct (Get m deep3) as [ap|] eqn:G; [|discriminate H].
  destruct (Verify ap [] None (t_hash m)) eqn:V; destruct (ProofType ap) as [[|]|] eqn:PT; try discriminate H.
  exists (Some []), deep_ops, m, deep3, ap. clear H.
  split; [split; [lia|split; [repeat constructor|]]|].
  { eexists. split; [reflexivity|exact E]. }
  split; [reflexivity|]. split; [reflexivity|]. split; [exact G|]. split; [exact PT|exact V].
Qed.
Print Assumptions C01_absent_shown_as_included_refuted.

(** Non-vacuity: a history with an overwrite, and a lookup of each kind. *)
Definition ex_i1 : bytes := x80 :: repeat x00 31.
Definition ex_i2 : bytes := xc0 :: repeat x00 31.
Definition ex_i3 : bytes := x40 :: repeat x00 31.
Definition ex_ops : list tree_op :=
  [TSet (Some [x01]) ex_i1 [x61] [x31]; TRehash; TSet (Some [x02]) ex_i2 [x62] [x32];
   TSet (Some [x03]) ex_i1 [x61] [x33]; TSet None ex_i3 [x63] [x34]].
Definition ex_tree {C : Crypto} : result MerkleTree :=
  run_tree (mkTree (Digest [[x07]]) (newInteriorNode 0 []) []) ex_ops.
Example C01_nonvacuous : exists m, @built ToyCrypto 32 (Some [x07]) ex_ops m /\
  option_map b_value (@last_set ToyCrypto ex_ops ex_i1) = Some [x33] /\
  @last_set ToyCrypto ex_ops ex_i3 = None /\
  spread (8 * (32 - 1)) (fun j => @last_set ToyCrypto ex_ops j <> None).
Proof.
  destruct (@ex_tree ToyCrypto) as [m|] eqn:E; [|vm_compute in E; discriminate].
  exists m. split.
  { split; [lia|]. split; [repeat constructor|]. eexists. split; [reflexivity|exact E]. }
  split; [reflexivity|]. split; [reflexivity|].
  assert (D : forall j, @last_set ToyCrypto ex_ops j <> None -> j = ex_i1 \/ j = ex_i2).
  { intros j. unfold last_set, last_set_from, ex_ops. cbn [fold_left last_set_step].
    destruct (beq_spec j ex_i1); auto. destruct (beq_spec j ex_i2); auto. congruence. }
  intros a b Ha Hb X. apply D in Ha, Hb.
  destruct Ha as [-> | ->], Hb as [-> | ->]; auto; vm_compute in X; discriminate.
Qed.

(** ** C02 *)
Theorem C02_no_panic : forall (C : Crypto), CryptoOk C ->
  forall nb r0 ops m0, 0 < nb -> NewMerkleTree r0 = Some m0 -> ops_len nb ops ->
  exists m, run_tree m0 ops = Ok m /\
    (forall r idx key value, length idx = nb -> Set_ m r idx key value <> Panic) /\
    (forall idx, length idx = nb -> Get m idx <> Panic).
Proof.
  intros C OK nb r0 ops m0 P N L. destruct (reach_inv OK nb r0 m0 ops P N L) as (m & E & _ & _ & I & _).
  exists m. split; auto. split.
  - intros r idx key value Li. destruct (set_inv nb m _ r idx key value I Li) as (o & -> & _). discriminate.
  - intros idx Li. destruct (get_inv OK nb m _ idx I Li) as (ap & leaf & -> & _). discriminate.
Qed.
Print Assumptions C02_no_panic.
Example C02_nonvacuous : exists m0, @NewMerkleTree ToyCrypto (Some [x07]) = Some m0 /\ ops_len 32 ex_ops.
Proof. eexists. split; [reflexivity|repeat constructor]. Qed.
(** Equal lengths are needed: a one-byte index below a two-byte one walks off the
    end of its bit string. *)
Theorem C02_mixed_lengths_refuted : exists m : MerkleTree, exists idx,
  @run_tree ToyCrypto (mkTree [] (newInteriorNode 0 []) [])
    [TSet (Some []) [x00; x00] [] []; TSet (Some []) [x00; x80] [] []] = Ok m /\ Get m idx = Panic.
Proof. eexists. exists [x00]. vm_compute. split; reflexivity. Qed.

(** ** C03 *)
Theorem C03_order_independent : forall (C : Crypto), CryptoOk C ->
  forall nb r0 ops1 ops2 m1 m2,
  built nb r0 ops1 m1 -> built nb r0 ops2 m2 ->
  (forall i, option_map commit_of (last_set ops1 i) = option_map commit_of (last_set ops2 i)) ->
  t_hash (recomputeHash m1) = t_hash (recomputeHash m2).
Proof.
  intros C OK nb r0 ops1 ops2 m1 m2 B1 B2 E.
  destruct (built_inv OK _ _ _ _ B1) as (_ & I1 & _ & Nn), (built_inv OK _ _ _ _ B2) as (_ & I2 & _).
  specialize (Nn _ _ _ eq_refl B2).
  destruct (rehash_inv nb _ _ I1) as (_ & _ & -> & _), (rehash_inv nb _ _ I2) as (_ & _ & -> & _).
  rewrite Nn. apply (canon_root nb); try apply I1; try apply I2.
  assert (G : forall m m' f f', tree_inv nb m f -> tree_inv nb m' f' ->
    (forall i, option_map commit_of (f i) = option_map commit_of (f' i)) ->
    forall p, In p (map proj (leaves (t_root m))) -> In p (map proj (leaves (t_root m')))).
  { intros m m' f f' I I' Ef p Hp. apply in_map_iff in Hp. destruct Hp as (d & <- & Hd).
    apply (ti_leaves _ _ _ I) in Hd. destruct Hd as (i & b & F & ->).
    specialize (Ef i). rewrite F in Ef. destruct (f' i) as [b'|] eqn:F'; [|discriminate].
    simpl in Ef. injection Ef as Es Ev. apply in_map_iff. exists (leaf_of i b'). split.
    - unfold proj, leaf_of. simpl. congruence.
    - apply (leaf_in_tree _ _ _ _ _ I'). exact F'. }
  intro p; split; eapply G; eauto.
Qed.
Print Assumptions C03_order_independent.
Example C03_nonvacuous :
  let ops' := [TSet (Some [x03]) ex_i1 [x61] [x33]; TSet (Some [x02]) ex_i2 [x62] [x32]; TRehash] in
  forall i, option_map (@commit_of ToyCrypto) (@last_set ToyCrypto ex_ops i) = option_map (@commit_of ToyCrypto) (@last_set ToyCrypto ops' i).
Proof.
  intros ops' i. unfold last_set, last_set_from, ops', ex_ops. cbn [fold_left last_set_step].
  destruct (beq_spec i ex_i1) as [->|]; [reflexivity|]. destruct (beq_spec i ex_i2) as [->|]; reflexivity.
Qed.

(** ** C04 *)
Theorem C04_proofs_verify : forall (C : Crypto), CryptoOk C ->
  forall nb r0 ops m i, built nb r0 ops m -> length i = nb ->
  let t := recomputeHash m in
  exists ap leaf, Get t i = Ok ap /\ ap_leaf ap = Some leaf /\
    match last_set ops i with
    | Some b => ProofType ap = Ok ProofOfInclusion /\ pn_value leaf = Some (b_value b) /\
                Verify ap (b_key b) (Some (b_value b)) (t_hash t) = Ok None
    | None => 1 < nb -> spread (8 * (nb - 1)) (fun j => last_set ops j <> None) ->
                ProofType ap = Ok ProofOfAbsence /\ pn_value leaf = None /\
                forall key v, Verify ap key v (t_hash t) = Ok None
    end.
Proof.
  intros C OK nb r0 ops m i B L t. destruct (built_inv OK _ _ _ _ B) as (_ & I & _).
  destruct (rehash_inv nb _ _ I) as (I' & Nn & Hh & Cl & St).
  destruct (get_complete OK nb t (last_set ops) i I') as (ap & leaf & G & AL & LK & M); auto.
  { unfold t. rewrite Nn. exact Cl. }
  assert (Ht : fresh_hash (t_nonce t) (t_root t) = t_hash t).
  { destruct (rehash_inv nb _ _ I') as (_ & _ & Hh' & _ & _). unfold t at 3. rewrite Hh. unfold t. rewrite Nn.
    rewrite <- (fresh_strip _ (t_root (recomputeHash m))), St, fresh_strip. reflexivity. }
  exists ap, leaf. split; auto. split; auto. destruct (last_set ops i) as [b|] eqn:F.
  - rewrite <- Ht. exact M.
  - intros P S. rewrite <- Ht. apply M. exact (absent_index OK nb t _ i ap leaf P I' L F S G AL).
Qed.
Print Assumptions C04_proofs_verify.

(** ** C05 *)
Theorem C05_path_shape : forall (C : Crypto), CryptoOk C ->
  forall nb r0 ops m i ap, built nb r0 ops m -> length i = nb -> Get m i = Ok ap ->
  exists leaf, ap_leaf ap = Some leaf /\ length (ap_pruned ap) = pn_level leaf /\
    Forall (fun h => length h = 32) (ap_pruned ap) /\
    1 <= pn_level leaf <= 8 * nb /\
    firstn (pn_level leaf) (ToBits (pn_index leaf)) = firstn (pn_level leaf) (ToBits i) /\
    (pn_empty leaf = false -> length (pn_index leaf) = nb) /\
    (pn_empty leaf = true -> length (pn_index leaf) = (pn_level leaf + 7) / 8).
Proof.
  intros C OK nb r0 ops m i ap B L G. destruct (built_inv OK _ _ _ _ B) as (_ & I & _).
  destruct (get_inv OK nb m _ i I L) as (ap' & leaf & G' & AL & AN & LK & Lp & Fp & Lv & PR & M & _).
  rewrite G in G'. injection G' as <-. exists leaf. do 5 (split; [assumption|]).
  destruct (last_set ops i) as [b|] eqn:F.
  - rewrite M. simpl. split; [auto|discriminate].
  - destruct M as (_ & [(Ee & _ & -> & _)|(Ee & _ & b & Fb & _)]); rewrite Ee; (split; [|intro X; try discriminate X]).
    + discriminate.
    + rewrite ToBytes_length, firstn_length, ToBits_length, L. rewrite Nat.min_l by lia. reflexivity.
    + intros _. exact (tree_inv_len _ _ _ _ _ I Fb).
Qed.
Print Assumptions C05_path_shape.

(** ** C06 *)
Theorem C06_cache_never_stale : forall (C : Crypto), CryptoOk C ->
  forall nb r0 ops m, built nb r0 ops m ->
  t_hash (recomputeHash m) = fresh_hash (t_nonce m) (t_root m) /\
  recomputeHash (recomputeHash m) = recomputeHash m.
Proof.
  intros C OK nb r0 ops m B. destruct (built_inv OK _ _ _ _ B) as (_ & I & _).
  destruct (rehash_inv nb _ _ I) as (I' & Nn & Hh & Cl & St). split; auto.
  unfold recomputeHash at 1. rewrite (hash_clean (t_nonce (recomputeHash m))) by (rewrite Nn; exact Cl).
  rewrite Nn. rewrite <- fresh_strip, St, fresh_strip, <- Hh. destruct (recomputeHash m) eqn:E; simpl in *. congruence.
Qed.
Print Assumptions C06_cache_never_stale.

(** Recomputing in between never changes the final hash. *)
Theorem C06_rehash_unobservable : forall (C : Crypto), CryptoOk C ->
  forall nb r0 ops m m', built nb r0 ops m ->
  built nb r0 (filter (fun op => match op with TRehash => false | _ => true end) ops) m' ->
  t_hash (recomputeHash m) = t_hash (recomputeHash m').
Proof.
  intros C OK nb r0 ops m m' B B'. eapply C03_order_independent; eauto.
  intro i. f_equal. unfold last_set, last_set_from. clear. generalize (fun _ : bytes => @None binding).
  induction ops as [|[r idx key value|] ops IH]; intro f; cbn [filter fold_left]; auto.
Qed.
Print Assumptions C06_rehash_unobservable.

(** ** C07 (values; isolation of the heap objects is in [Prop_Heap.v]) *)
Theorem C07_clone_faithful : forall (C : Crypto), CryptoOk C ->
  forall nb r0 ops m, built nb r0 ops m ->
  let t := recomputeHash m in
  t_hash (Clone t) = t_hash t /\ (forall i, Get (Clone t) i = Get t i) /\
  (forall ops', run_tree (Clone t) ops' = run_tree t ops').
Proof.
  intros C OK nb r0 ops m B t. destruct (built_inv OK _ _ _ _ B) as (_ & I & _).
  destruct (rehash_inv nb _ _ I) as (_ & Nn & _ & Cl & _).
  assert (E : Clone t = t).
  { unfold Clone. rewrite (clone_clean (t_nonce t)). { destruct t; reflexivity. } unfold t. rewrite Nn. exact Cl. }
  rewrite E. auto.
Qed.
Print Assumptions C07_clone_faithful.

(** ** C08 *)
(** Whatever the state of the caches: a clone stays in step with the original,
    under equal operations it answers every [Get] with the same nonce, leaf
    (so the same binding or absence) and number of siblings, and crashes only if
    the original does.  Only the hashes may differ... *)
Theorem C08_clone_same_bindings : forall (C : Crypto) m ops,
  match run_tree m ops, run_tree (Clone m) ops with
  | Ok m1, Ok m2 => forall i, match Get m1 i, Get m2 i with
      | Ok p1, Ok p2 => ap_leaf p1 = ap_leaf p2 /\ ap_lookup p1 = ap_lookup p2 /\ ap_nonce p1 = ap_nonce p2 /\
          length (ap_pruned p1) = length (ap_pruned p2)
      | Panic, Panic => True
      | _, _ => False
      end
  | Panic, Panic => True
  | _, _ => False
  end.
Proof.
  intros C m ops. pose proof (run_same ops (Clone m) m (clone_same_tree m)) as A.
  destruct (run_tree m ops) as [m1|], (run_tree (Clone m) ops) as [m2|]; cbn [agree] in A; auto.
  intro i. pose proof (get_same m2 m1 i A) as G. destruct (Get m1 i), (Get m2 i); cbn [agree] in G; auto.
  destruct G as (G1 & G2 & G3 & G4). auto.
Qed.
Print Assumptions C08_clone_same_bindings.

(** ... and they do if hashes were not recomputed before: the clone of a fresh tree
    hashes to the digest of the empty string whatever its nonce and contents... *)
Theorem C08_clone_of_dirty_tree_hash : forall (C : Crypto) r m,
  NewMerkleTree r = Some m -> t_hash (recomputeHash (Clone m)) = shake [].
Proof.
  intros C r m H. unfold NewMerkleTree in H. destruct (MakeRand r); [|discriminate]. injection H as <-. reflexivity.
Qed.
Print Assumptions C08_clone_of_dirty_tree_hash.
(** ... which is not what the original hashes to. *)
Theorem C08_clone_of_dirty_tree_refuted :
  exists (C : Crypto), CryptoOk C /\ exists r0 ops m, built 32 r0 ops m /\
    t_hash (recomputeHash (Clone m)) <> t_hash (recomputeHash m).
Proof.
  exists ToyCrypto. split; [exact ToyCrypto_ok|].
  assert (H : match @ex_tree ToyCrypto with
              | Ok m => negb (beq (t_hash (@recomputeHash ToyCrypto (Clone m))) (t_hash (@recomputeHash ToyCrypto m)))
              | Panic => false end = true) by (vm_compute; reflexivity).
  destruct ex_tree as [m|] eqn:E; [|discriminate H].
  exists (Some [x07]), ex_ops, m. split.
  { split; [lia|]. split; [repeat constructor|]. eexists. split; [reflexivity|exact E]. }
  apply beq_neq. apply negb_true_iff. exact H.
Qed.
Print Assumptions C08_clone_of_dirty_tree_refuted.

(** ** C09 *)
Theorem C09_root_hash_commits : forall (C : Crypto), CryptoOk C ->
  forall r1 r2 ops1 ops2 m1 m2,
  built 32 r1 ops1 m1 -> built 32 r2 ops2 m2 ->
  spread 208 (fun j => last_set ops1 j <> None) -> spread 208 (fun j => last_set ops2 j <> None) ->
  t_hash (recomputeHash m1) = t_hash (recomputeHash m2) ->
  collision_between (tree_inputs m1) (tree_inputs m2) \/
  (t_nonce m1 = t_nonce m2 /\
   forall i, match last_set ops1 i, last_set ops2 i with
             | Some b1, Some b2 => commit_of b1 = commit_of b2 /\
                  b_key b1 ++ b_value b1 = b_key b2 ++ b_value b2
             | None, None => True
             | _, _ => False
             end).
Proof.
  intros C OK r1 r2 ops1 ops2 m1 m2 B1 B2 S1 S2 E.
  destruct (built_inv OK _ _ _ _ B1) as (L1 & I1 & A1 & _), (built_inv OK _ _ _ _ B2) as (L2 & I2 & A2 & _).
  destruct (rehash_inv 32 _ _ I1) as (_ & _ & H1 & _), (rehash_inv 32 _ _ I2) as (_ & _ & H2 & _).
  rewrite H1, H2 in E.
  destruct (trees_agree OK m1 m2 _ _ I1 I2 L1 L2) as [Co|(En & M)]; auto.
  - apply (tree_shallow 32 m1 _ 208 I1); auto. lia.
  - apply (tree_shallow 32 m2 _ 208 I2); auto. lia.
  - right. split; auto. intro i. specialize (M i).
    destruct (last_set ops1 i), (last_set ops2 i); auto. destruct M as [Es Ek].
    split; auto. unfold commit_of, Digest. cbn [concat]. rewrite Es, !app_nil_r, Ek. reflexivity.
Qed.
Print Assumptions C09_root_hash_commits.

(** ** C46 *)
Theorem C46_bits_roundtrip : forall bs, ToBytes (ToBits bs) = bs.
Proof. exact ToBytes_ToBits. Qed.
Print Assumptions C46_bits_roundtrip.
Theorem C46_bytes_roundtrip : forall bits, exists pad,
  ToBits (ToBytes bits) = bits ++ repeat false pad /\ pad < 8.
Proof.
  intro bits. exists (pad8 (length bits)). split; [apply ToBits_ToBytes|].
  unfold pad8. pose proof (pad8_bound (length bits)). lia.
Qed.
Print Assumptions C46_bytes_roundtrip.
Theorem C46_nth_bit : forall bs i,
  GetNthBit bs i = match nth_error (ToBits bs) i with Some b => Ok b | None => Panic end.
Proof. exact GetNthBit_ToBits. Qed.
Print Assumptions C46_nth_bit.
(** Bit [i] of a byte string, most significant bit of each byte first. *)
Theorem C46_bits_meaning : forall bs k i b, i < 8 -> nth_error bs k = Some b ->
  nth_error (ToBits bs) (8 * k + i) = Some (N.testbit (Byte.to_N b) (N.of_nat (7 - i))).
Proof. exact ToBits_nth. Qed.
Print Assumptions C46_bits_meaning.
Theorem C46_bits_of_concat : forall a b, ToBits (a ++ b) = ToBits a ++ ToBits b.
Proof. exact ToBits_app. Qed.
Print Assumptions C46_bits_of_concat.
Theorem C46_le64_injective : forall a b, (a < 2 ^ 64)%N -> (b < 2 ^ 64)%N ->
  length (ULongToBytes a) = 8 /\ (ULongToBytes a = ULongToBytes b -> a = b).
Proof. intros a b Ha Hb. split; [apply ULongToBytes_length|]. apply ULongToBytes_inj; auto. Qed.
Print Assumptions C46_le64_injective.
Theorem C46_le32_injective : forall a b, (a < 2 ^ 32)%N -> (b < 2 ^ 32)%N ->
  length (UInt32ToBytes a) = 4 /\ (UInt32ToBytes a = UInt32ToBytes b -> a = b).
Proof. intros a b Ha Hb. split; [apply UInt32ToBytes_length|]. apply UInt32ToBytes_inj; auto. Qed.
Print Assumptions C46_le32_injective.
(** The encodings are little-endian: byte [i] is [n / 256^i mod 256]. *)
Theorem C46_little_endian : forall n i, i < 8 ->
  nth_error (ULongToBytes n) i = Some (b8 (n / 256 ^ N.of_nat i)) /\
  (i < 4 -> nth_error (UInt32ToBytes n) i = Some (b8 (n / 256 ^ N.of_nat i))).
Proof. intros n i Hi. split; [|intro]; apply le_bytes_nth; auto. Qed.
Print Assumptions C46_little_endian.
