(** C87: the root hash and the paths are those of CONIKS's Merkle prefix tree,
    for whatever is stored, however it got there. *)
From Coq Require Import List NArith Lia Bool Arith Permutation.
From Verif Require Import Base Utils Crypto Tree TreeSpec TreeFacts CloneFacts TreeHist TreeMain STR PAD PADSpec PADFacts PADMain Prop_Tree Prop_PAD
  MptSpec MptFacts.
Import ListNotations.

(** [L] lists what a history has stored: one entry per index with the
    commitment of its last successful [Set]. *)
Definition stored {C : Crypto} (f : bytes -> option binding) (L : list (bytes * bytes)) : Prop :=
  NoDup (map fst L) /\
  forall i c, In (i, c) L <-> exists b, f i = Some b /\ c = shake (b_salt b ++ b_key b ++ b_value b).

Lemma nth_error_same {T} : forall (a b : list T), (forall j, nth_error a j = nth_error b j) -> a = b.
Proof.
  induction a as [|x a IH]; intros [|y b] H; [reflexivity|discriminate (H 0)|discriminate (H 0)|].
  pose proof (H 0) as E. cbn [nth_error] in E. injection E as ->. rewrite (IH b); [reflexivity|]. intro j. exact (H (S j)).
Qed.

Section Facts.
  Context {C : Crypto} (OK : CryptoOk C).
  Let Hlen := ok_shake_len _ OK.

  Lemma commit_value b : c_value (commit_of b) = shake (b_salt b ++ b_key b ++ b_value b).
  Proof. unfold commit_of, Digest. cbn [c_value concat]. rewrite app_nil_r. reflexivity. Qed.

  Lemma stored_leaves nb m f : tree_inv nb m f -> stored f (map ent (leaves (t_root m))).
  Proof.
    intro I. split.
    - rewrite map_map. cbn [ent fst]. apply (wf_NoDup nb []). apply (ti_wf _ _ _ I).
    - intros i c. rewrite in_map_iff. split.
      + intros (d & E & D). apply (ti_leaves _ _ _ I) in D as (j & b & F & ->). injection E as <- <-. exists b. split; [exact F|apply commit_value].
      + intros (b & F & ->). exists (leaf_of i b). split; [unfold ent, leaf_of; cbn [l_index l_com]; rewrite commit_value; reflexivity|].
        apply (ti_leaves _ _ _ I). eauto.
  Qed.
  Lemma stored_perm f L L' : stored f L -> stored f L' -> Permutation L L'.
  Proof.
    intros (N & H) (N' & H'). apply NoDup_Permutation.
    - apply (NoDup_map_inv fst). exact N.
    - apply (NoDup_map_inv fst). exact N'.
    - intros [i c]. rewrite H, H'. reflexivity.
  Qed.
  Lemma inv_root nb m f L : tree_inv nb m f -> stored f L -> fresh_hash (t_nonce m) (t_root m) = mpt_root nb (t_nonce m) L.
  Proof.
    intros I S. symmetry. apply mpt_root_fresh; [apply (ti_wf _ _ _ I)|apply (ti_dense _ _ _ I)|].
    apply (stored_perm f); [exact S|apply (stored_leaves nb); exact I].
  Qed.
  Lemma inv_path nb m f L i : tree_inv nb m f -> clean (t_nonce m) (t_root m) -> stored f L -> length i = nb ->
    exists ap leaf d, Get m i = Ok ap /\ ap_leaf ap = Some leaf /\ pn_level leaf = d /\ ends_at L i d /\
      ap_nonce ap = t_nonce m /\ ap_lookup ap = i /\
      ap_pruned ap = map (fun j => hash_at nb (t_nonce m) L (beside_path i j)) (seq 0 d) /\
      match under L (firstn d (bits_of i)) with
      | [] => pn_empty leaf = true /\ pn_index leaf = pack (firstn d (bits_of i)) /\ pn_com leaf = None /\ pn_value leaf = None
      | (j, c) :: _ => pn_empty leaf = false /\ pn_index leaf = j /\ option_map c_value (pn_com leaf) = Some c
      end.
  Proof.
    intros I CL S LI.
    assert (P : Permutation (under L []) (map ent (leaves (t_root m)))).
    { rewrite under_nil. apply (stored_perm f); [exact S|apply (stored_leaves nb); exact I]. }
    destruct (get_loop_mpt OK nb (t_nonce m) L (ToBits i) (t_root m) [] []) as (q & ps & lf & E & F & LP & NI & W & PU & SB & UP).
    { rewrite ToBits_length. lia. }
    { reflexivity. }
    { apply (ti_wf _ _ _ I). }
    { left. split; [reflexivity|apply (ti_dense _ _ _ I)]. }
    { exact CL. }
    { exact P. }
    cbn [app length] in *.
    assert (Q1 : 1 <= length q).
    { pose proof (ti_dense _ _ _ I) as D. destruct (t_root m) as [| |lvl lh rh l r] eqn:R; cbn [root_dense] in D; try contradiction.
      rewrite <- LP. cbn [get_loop] in E.
      destruct (index (ToBits i) 0) as [dir|]; cbn [bind] in E; [|discriminate E].
      destruct dir; apply get_loop_mono in E; exact E. }
    assert (PR : ps = map (fun j => hash_at nb (t_nonce m) L (beside_path i j)) (seq 0 (length q))).
    { apply nth_error_same. intro j. destruct (lt_dec j (length q)) as [G|G].
      - rewrite SB by exact G. cbn [Nat.add]. rewrite (map_nth_error _ j (seq 0 (length q)) (d := j)).
        + unfold beside_path. rewrite bits_of_ToBits. reflexivity.
        + rewrite (nth_error_nth' _ 0) by (rewrite seq_length; exact G). rewrite seq_nth by exact G. reflexivity.
      - transitivity (@None bytes); [apply nth_error_None; lia|]. symmetry. apply nth_error_None. rewrite map_length, seq_length. lia. }
    assert (EN : ends_at L i (length q)).
    { unfold ends_at. rewrite bits_of_ToBits. rewrite F. split; [exact Q1|]. split.
      - rewrite (Permutation_length PU), map_length. destruct lf; cbn [leaves length]; [lia|lia|]. exfalso. eapply NI. reflexivity.
      - intros d' H1 H2. destruct (UP d' ltac:(lia) H2) as [->|X]; [lia|exact X]. }
    unfold Get. rewrite E. cbn [bind].
    destruct lf as [lvl ix|lvl d|lvl lh rh l r]; [| |exfalso; eapply NI; reflexivity].
    - cbn [wf] in W. destruct W as (-> & -> & _). cbn [proof_leaf bind]. do 3 eexists. split; [reflexivity|].
      cbn [ap_leaf ap_nonce ap_lookup ap_pruned]. split; [reflexivity|]. cbn [pn_level pn_index pn_value pn_empty pn_com]. split; [reflexivity|].
      split; [exact EN|]. split; [reflexivity|]. split; [reflexivity|]. split; [exact PR|].
      rewrite bits_of_ToBits, F. cbn [leaves map] in PU. apply Permutation_sym, Permutation_nil in PU. rewrite PU.
      split; [reflexivity|]. split; [symmetry; apply pack_ToBytes|]. split; reflexivity.
    - cbn [wf] in W. destruct W as (-> & _). cbn [leaves map] in PU. apply Permutation_sym, Permutation_length_1_inv in PU.
      assert (G : exists ap leaf, (do lf <- proof_leaf i (Leaf (length q) d); Ok (mkAP (t_nonce m) ps i [] (Some lf))) = Ok ap /\ ap_leaf ap = Some leaf /\
        pn_level leaf = length q /\ ap_nonce ap = t_nonce m /\ ap_lookup ap = i /\ ap_pruned ap = ps /\
        pn_empty leaf = false /\ pn_index leaf = l_index d /\ option_map c_value (pn_com leaf) = Some (c_value (l_com d))).
      { cbn [proof_leaf]. destruct (beq (l_index d) i); cbn [bind]; do 2 eexists; (split; [reflexivity|]); cbn; repeat split. }
      destruct G as (ap & leaf & G & A1 & A2 & A3 & A4 & A5 & A6 & A7 & A8).
      exists ap, leaf, (length q). split; [exact G|]. split; [exact A1|]. split; [exact A2|]. split; [exact EN|]. split; [exact A3|].
      split; [exact A4|]. split; [rewrite A5; exact PR|]. rewrite bits_of_ToBits, F, PU. cbn [ent]. tauto.
  Qed.
End Facts.

(** The root hash is the hash of the Merkle prefix tree over what is stored. *)
Theorem C87_root_hash : forall (C : Crypto), CryptoOk C -> forall nb r0 ops m L,
  built nb r0 ops m -> stored (last_set ops) L ->
  t_hash (recomputeHash m) = mpt_root nb (t_nonce m) L.
Proof.
  intros C OK nb r0 ops m L B S. destruct (built_inv OK _ _ _ _ B) as (_ & I & _).
  destruct (rehash_inv nb m _ I) as (I' & N & H & CL & ST). rewrite H. apply (inv_root nb m (last_set ops) L I S).
Qed.
Print Assumptions C87_root_hash.
(** Such a list always exists. *)
Theorem C87_stored_exists : forall (C : Crypto), CryptoOk C -> forall nb r0 ops m, built nb r0 ops m -> exists L, stored (last_set ops) L.
Proof.
  intros C OK nb r0 ops m B. destruct (built_inv OK _ _ _ _ B) as (_ & I & _).
  exists (map ent (leaves (t_root m))). apply (stored_leaves nb). exact I.
Qed.
Print Assumptions C87_stored_exists.

(** [Get] answers with the position where the search ends, what is there, and
    the hashes beside the path: the whole answer is determined by what is
    stored. *)
Theorem C87_path : forall (C : Crypto), CryptoOk C -> forall nb r0 ops m L i,
  built nb r0 ops m -> stored (last_set ops) L -> length i = nb ->
  exists ap leaf d, Get (recomputeHash m) i = Ok ap /\ ap_leaf ap = Some leaf /\ pn_level leaf = d /\ ends_at L i d /\
    ap_nonce ap = t_nonce m /\ ap_lookup ap = i /\
    ap_pruned ap = map (fun j => hash_at nb (t_nonce m) L (beside_path i j)) (seq 0 d) /\
    match under L (firstn d (bits_of i)) with
    | [] => pn_empty leaf = true /\ pn_index leaf = pack (firstn d (bits_of i)) /\ pn_com leaf = None /\ pn_value leaf = None
    | (j, c) :: _ => pn_empty leaf = false /\ pn_index leaf = j /\ option_map c_value (pn_com leaf) = Some c
    end.
Proof.
  intros C OK nb r0 ops m L i B S LI. destruct (built_inv OK _ _ _ _ B) as (_ & I & _).
  destruct (rehash_inv nb m _ I) as (I' & N & H & CL & ST). rewrite <- N.
  apply (inv_path OK nb _ (last_set ops) L i I'); [rewrite N; exact CL|exact S|exact LI].
Qed.
Print Assumptions C87_path.

Lemma keys_upto {A} k : forall (ops : list (pad_op A)) x, In x (keys_of (upto k ops)) -> In x (keys_of ops).
Proof.
  intros ops. revert k. induction ops as [|op ops IH]; intros k x H; [destruct k; exact H|].
  destruct k as [|k]; [destruct H|]. destruct op as [r key v|a]; cbn [upto keys_of flat_map op_keys app] in *.
  - destruct H as [<-|H]; [left; reflexivity|right; apply (IH (S k)); exact H].
  - apply (IH k). exact H.
Qed.
Lemma last_put_keys {C : Crypto} {A} (ops : list (pad_op A)) key b : last_put ops key = Some b -> In key (keys_of ops).
Proof.
  induction ops as [|op ops IH] using rev_ind; [discriminate|]. rewrite last_put_app. cbn [fold_left].
  rewrite keys_app, in_app_iff. intro H. destruct op as [[r|] k v|a]; cbn [put_step] in H; auto.
  destruct (beq_spec key k) as [->|N]; auto. right. left. reflexivity.
Qed.

(** The same for every epoch of a persistent authenticated dictionary, in terms
    of its keys: each signed tree root carries the root of the prefix tree over
    the keys put before that epoch, under their private indices; the nonce of
    the tree never changes. *)
Definition recorded {C : Crypto} (vk : bytes) (f : bytes -> option binding) (L : list (bytes * bytes)) : Prop :=
  NoDup (map fst L) /\
  forall i c, In (i, c) L <-> exists key b, f key = Some b /\ i = fst (vrf_prove vk key) /\ c = shake (b_salt b ++ b_key b ++ b_value b).

Theorem C87_epochs : forall (C : Crypto), CryptoOk C -> forall A (ser : A -> bytes) ad0 sk vk len r1 r2 ops p hist,
  pad_built ser ad0 sk vk len r1 r2 ops p hist -> (N.of_nat (updates ops) < 2 ^ 64)%N -> vrf_spread 256 vk (keys_of ops) ->
  exists nonce, length nonce = 32 /\
  forall k s, nth_error hist k = Some s ->
    (exists L, recorded vk (last_put (upto k ops)) L) /\
    forall L, recorded vk (last_put (upto k ops)) L -> s_hash (st_body s) = mpt_root 32 nonce L.
Proof.
  intros C OK A ser ad0 sk vk len r1 r2 ops p hist B U SP.
  pose proof (built_pad_inv OK _ _ _ _ _ _ _ _ _ _ B U) as I.
  exists (t_nonce (pd_tree p)). split; [apply (pi_nonce _ _ _ _ _ _ _ _ I)|].
  intros k s E. pose proof (pi_hist _ _ _ _ _ _ _ _ I k s E) as SO.
  pose proof (so_tree _ _ _ _ _ _ _ _ SO) as TI.
  assert (IJ : forall a b, In a (keys_of (upto k ops)) -> In b (keys_of (upto k ops)) -> idx_of vk a = idx_of vk b -> a = b).
  { intros a b Ia Ib. apply (vrf_spread_inj vk 256 (keys_of ops)); [exact SP|apply (keys_upto k); exact Ia|apply (keys_upto k); exact Ib]. }
  assert (R : forall L, recorded vk (last_put (upto k ops)) L <-> stored (last_set (tops vk (upto k ops))) L).
  { intro L. unfold recorded, stored.
    assert (Q : forall i c, (exists key b, last_put (upto k ops) key = Some b /\ i = fst (vrf_prove vk key) /\ c = shake (b_salt b ++ b_key b ++ b_value b)) <->
                 exists b, last_set (tops vk (upto k ops)) i = Some b /\ c = shake (b_salt b ++ b_key b ++ b_value b)).
    { intros i c. split.
      - intros (key & b & F & -> & Ec). exists b. split; [|exact Ec].
        change (fst (vrf_prove vk key)) with (idx_of vk key). rewrite last_put_set; [exact F|].
        intros k2 I2 E2. apply IJ; [exact I2|apply (last_put_keys _ _ _ F)|exact E2].
      - intros (b & F & Ec). destruct (last_set_stored vk _ i b F) as (key & Ik & ->). exists key, b.
        rewrite last_put_set in F; [|intros k2 I2 E2; apply IJ; auto]. auto. }
    split; intros (N & H); (split; [exact N|]); intros i c; rewrite H, Q; reflexivity. }
  split.
  - exists (map ent (leaves (t_root (st_tree s)))). apply R. apply (stored_leaves 32). exact TI.
  - intros L RL. apply R in RL. rewrite (so_body _ _ _ _ _ _ _ _ SO), (so_hash _ _ _ _ _ _ _ _ SO), <- (so_nonce _ _ _ _ _ _ _ _ SO).
    apply (inv_root 32 _ _ L TI RL).
Qed.
Print Assumptions C87_epochs.

(** Non-vacuity: the history of [C01_nonvacuous] ends with two entries whose
    indices agree in their first bit, so that the tree has a level below the
    root; an absent index with its own empty position, and the paths. *)
Definition ex87_L {C : Crypto} : list (bytes * bytes) :=
  [(ex_i1, shake (Digest [[x03]] ++ [x61] ++ [x33])); (ex_i2, shake (Digest [[x02]] ++ [x62] ++ [x32]))].
Example C87_nonvacuous : exists m, @built ToyCrypto 32 (Some [x07]) ex_ops m /\
  @stored ToyCrypto (@last_set ToyCrypto ex_ops) (@ex87_L ToyCrypto) /\
  ends_at (@ex87_L ToyCrypto) ex_i1 2 /\ ends_at (@ex87_L ToyCrypto) ex_i3 1 /\
  @mpt_root ToyCrypto 32 (t_nonce m) (@ex87_L ToyCrypto) <> @mpt_root ToyCrypto 32 (t_nonce m) [].
Proof.
  destruct C01_nonvacuous as (m & B & _). exists m. split; [exact B|].
  assert (ST : @stored ToyCrypto (@last_set ToyCrypto ex_ops) (@ex87_L ToyCrypto)).
  { split.
    - cbn [ex87_L map fst]. repeat constructor; cbn [In]; intuition discriminate.
    - intros i c. unfold last_set, last_set_from, ex_ops. cbn [fold_left last_set_step]. unfold ex87_L. cbn [In]. split.
      + intros [E|[E|[]]]; injection E as <- <-; [rewrite beq_refl; eauto|]. 
        destruct (beq_spec ex_i2 ex_i1) as [X|_]; [discriminate X|]. rewrite beq_refl. eauto.
      + intros (b & F & ->). destruct (beq_spec i ex_i1) as [->|_]; [injection F as <-; left; reflexivity|].
        destruct (beq_spec i ex_i2) as [->|_]; [injection F as <-; right; left; reflexivity|discriminate F]. }
  split; [exact ST|]. split; [|split].
  - split; [lia|]. split; [vm_compute; lia|]. intros d' H1 H2. replace d' with 1 by lia. vm_compute. lia.
  - split; [lia|]. split; [vm_compute; lia|]. intros d' H1 H2. lia.
  - destruct B as (_ & _ & m0 & N & R). 
    assert (Q : t_nonce m = @Digest ToyCrypto [[x07]]).
    { assert (X : match @NewMerkleTree ToyCrypto (Some [x07]) with Some m0 => match @run_tree ToyCrypto m0 ex_ops with Ok m => beq (t_nonce m) (@Digest ToyCrypto [[x07]]) | _ => false end | None => false end = true) by (vm_compute; reflexivity).
      rewrite N, R in X. apply beq_eq. exact X. }
    rewrite Q. assert (X : beq (@mpt_root ToyCrypto 32 (@Digest ToyCrypto [[x07]]) (@ex87_L ToyCrypto)) (@mpt_root ToyCrypto 32 (@Digest ToyCrypto [[x07]]) []) = false) by (vm_compute; reflexivity).
    intro E. rewrite E, beq_refl in X. discriminate X.
Qed.
Example C87_epochs_nonvacuous : exists p hist,
  @pad_built ToyCrypto bytes (fun x => x) [x04] [x10] [x11] 3 (Some [x07]) (Some [x08]) pad_ex_ops p hist /\
  (N.of_nat (updates pad_ex_ops) < 2 ^ 64)%N /\ @vrf_spread ToyCrypto 256 [x11] (keys_of pad_ex_ops) /\ length hist = 4.
Proof.
  destruct pad_nonvacuous as (p & hist & B & U & SP & _). exists p, hist. split; [exact B|]. split; [exact U|]. split.
  - intros a b Ia Ib E. apply (proj1 SP a b); [right; exact Ia|right; exact Ib|].
    apply (f_equal (firstn 248)) in E. rewrite !firstn_firstn in E. exact E.
  - pose proof (built_pad_inv ToyCrypto_ok _ _ _ _ _ _ _ _ _ _ B U) as I. apply (pi_len _ _ _ _ _ _ _ _ I).
Qed.
