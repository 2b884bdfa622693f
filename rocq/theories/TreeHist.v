(** The invariant of trees reachable by a history, and its consequences. *)
From Coq Require Import List NArith Lia Bool Arith.
From Verif Require Import Base Utils Crypto Tree TreeFacts TreeSpec.
Import ListNotations.

Lemma nth_error_firstn_lt {A} k (l : list A) i : i < k -> nth_error (firstn k l) i = nth_error l i.
Proof.
  revert l i; induction k; intros l i L; [lia|]. destruct l, i; simpl; auto. apply IHk. lia.
Qed.

Lemma get_loop_mono b n : forall acc dd x y,
  get_loop b dd n acc = Ok (x, y) -> length acc <= length x.
Proof.
  induction n as [| |? ? ? l IHl r IHr]; intros acc dd x y H; cbn [get_loop] in H;
    try (injection H as <- <-; lia).
  destruct (index b dd) as [dir|]; cbn [bind] in H; try discriminate.
  destruct dir; [apply IHr in H|apply IHl in H]; rewrite app_length in H; simpl in H; lia.
Qed.

Section Hist.
  Context {C : Crypto} (OK : CryptoOk C).
  Let Hlen := ok_shake_len _ OK.

  Definition leaf_of (i : bytes) (b : binding) : leafdata :=
    mkLeaf (b_key b) (b_value b) i (commit_of b).

  (** [m] stores exactly [f]. *)
  Record tree_inv (nb : nat) (m : MerkleTree) (f : bytes -> option binding) : Prop := {
    ti_wf : wf nb [] (t_root m);
    ti_dense : root_dense (t_root m);
    ti_cached : cached (t_nonce m) (t_root m);
    ti_leaves : forall d, In d (leaves (t_root m)) <->
                  exists i b, f i = Some b /\ d = leaf_of i b
  }.

  Lemma tree_inv_len nb m f i b : tree_inv nb m f -> f i = Some b -> length i = nb.
  Proof.
    intros I H.
    assert (X : In (leaf_of i b) (leaves (t_root m))) by (apply (ti_leaves _ _ _ I); eauto).
    apply (wf_leaves _ _ _ _ (ti_wf _ _ _ I)) in X. apply X.
  Qed.

  Lemma new_tree_inv nb r m :
    0 < nb -> NewMerkleTree r = Some m -> tree_inv nb m (fun _ => None).
  Proof.
    unfold NewMerkleTree, MakeRand. intros P H. destruct r as [r0|]; simpl in H; try discriminate.
    injection H as <-. constructor; simpl.
    - repeat split; auto; lia.
    - auto.
    - intuition.
    - intro d. split; [tauto|]. intros (i & b & F & _). discriminate.
  Qed.

  Lemma root_dense_nonempty n : root_dense n -> isEmpty n = false.
  Proof. destruct n; simpl; tauto. Qed.

  Lemma set_inv nb m f r idx key value :
    tree_inv nb m f -> length idx = nb ->
    exists o, Set_ m r idx key value = Ok o /\
      match o with
      | None => r = None
      | Some m' => r <> None /\ t_nonce m' = t_nonce m /\
          tree_inv nb m' (last_set_step f (TSet r idx key value))
      end.
  Proof.
    intros I L. unfold Set_, NewCommit, MakeRand.
    destruct r as [r|]; simpl option_map; cbv iota beta.
    2:{ exists None. auto. }
    set (c := mkCommit (Digest [r]) (Digest [Digest [r]; key; value])).
    set (d := mkLeaf key value idx c).
    destruct (insert_spec nb d (ToBits idx) [] (t_root m)) as (n' & E & W & NE & Hin & _ & _ & RD).
    - exact L.
    - reflexivity.
    - apply I.
    - apply root_dense_nonempty, I.
    - unfold insertNode. change (length (@nil bool)) with 0 in E.
      change (l_index d) with idx in E. rewrite E. cbn [bind]. eexists; split; [reflexivity|].
      split; [congruence|]. split; [reflexivity|]. constructor; cbn [t_root t_nonce].
      + exact W.
      + apply RD, I.
      + eapply insert_cached; [|exact E]. apply I.
      + intro x. rewrite Hin, (ti_leaves _ _ _ I). cbn [last_set_step].
        split.
        * intros [->|((i & b & F & ->) & N)].
          -- exists idx, (mkBinding key value (Digest [r])). rewrite beq_refl. auto.
          -- exists i, b. simpl in N. apply beq_neq in N. rewrite N. auto.
        * intros (i & b & F & ->). destruct (beq_spec i idx) as [->|N].
          -- injection F as <-. left. reflexivity.
          -- right. split; [eauto|]. simpl. auto.
  Qed.

  Lemma rehash_inv nb m f : tree_inv nb m f ->
    tree_inv nb (recomputeHash m) f /\
    t_nonce (recomputeHash m) = t_nonce m /\
    t_hash (recomputeHash m) = fresh_hash (t_nonce m) (t_root m) /\
    clean (t_nonce m) (t_root (recomputeHash m)) /\
    strip (t_root (recomputeHash m)) = strip (t_root m).
  Proof.
    intro I. unfold recomputeHash.
    pose proof (hash_node_spec (t_nonce m) (t_root m) (ti_cached _ _ _ I)) as (Hh & Hc & Hs).
    destruct (hash_node (t_nonce m) (t_root m)) as [h root]. simpl in *.
    split; [|auto]. constructor; simpl.
    - rewrite <- wf_strip, Hs, wf_strip. apply I.
    - rewrite <- root_dense_strip, Hs, root_dense_strip. apply I.
    - apply clean_cached. auto.
    - intro d. rewrite <- leaves_strip, Hs, leaves_strip. apply I.
  Qed.

  Lemma step_inv nb m f op :
    tree_inv nb m f -> op_len nb op ->
    exists m', tree_step m op = Ok m' /\ t_nonce m' = t_nonce m /\
      tree_inv nb m' (last_set_step f op).
  Proof.
    intros I L. destruct op as [r idx key value|]; simpl in L.
    - destruct (set_inv nb m f r idx key value I L) as (o & E & H).
      cbn [tree_step]. rewrite E. cbn [bind]. destruct o as [m'|].
      + destruct H as (_ & N & H). eauto.
      + subst r. eexists; split; [reflexivity|]. auto.
    - eexists; split; [reflexivity|]. destruct (rehash_inv nb m f I) as (A & B & _). auto.
  Qed.

  Lemma run_inv nb ops : forall m f,
    tree_inv nb m f -> ops_len nb ops ->
    exists m', run_tree m ops = Ok m' /\ t_nonce m' = t_nonce m /\
      tree_inv nb m' (last_set_from f ops).
  Proof.
    induction ops as [|op ops IH]; intros m f I L.
    - exists m. auto.
    - inversion L; subst. destruct (step_inv nb m f op I H1) as (m' & E & N & I').
      destruct (IH m' _ I' H2) as (m'' & E' & N' & I''). exists m''.
      cbn [run_tree]. rewrite E. cbn [bind]. split; auto. split; [congruence|]. exact I''.
  Qed.

  (** ** Get *)

  Lemma leaf_in_tree nb m f i b : tree_inv nb m f ->
    (In (leaf_of i b) (leaves (t_root m)) <-> f i = Some b).
  Proof.
    intro I. rewrite (ti_leaves _ _ _ I). split.
    - intros (i' & b' & F & E). injection E as E1 E2 E3 E4. subst i'.
      assert (b = b') by (destruct b, b'; simpl in *; congruence). congruence.
    - eauto.
  Qed.

  Lemma get_inv nb m f i :
    tree_inv nb m f -> length i = nb ->
    exists ap leaf, Get m i = Ok ap /\ ap_leaf ap = Some leaf /\
      ap_nonce ap = t_nonce m /\ ap_lookup ap = i /\
      length (ap_pruned ap) = pn_level leaf /\
      Forall (fun h => length h = 32) (ap_pruned ap) /\
      1 <= pn_level leaf <= 8 * nb /\
      firstn (pn_level leaf) (ToBits (pn_index leaf)) = firstn (pn_level leaf) (ToBits i) /\
      (match f i with
       | Some b => leaf = mkPN (pn_level leaf) i (Some (b_value b)) false (Some (commit_of b))
       | None => pn_value leaf = None /\
           ((pn_empty leaf = true /\ pn_com leaf = None /\
             pn_index leaf = ToBytes (firstn (pn_level leaf) (ToBits i)) /\
             (forall j b, f j = Some b ->
                firstn (pn_level leaf) (ToBits j) <> firstn (pn_level leaf) (ToBits i))) \/
            (pn_empty leaf = false /\ pn_index leaf <> i /\
             exists b, f (pn_index leaf) = Some b /\
               pn_com leaf = Some (mkCommit [] (c_value (commit_of b)))))
       end) /\
      (clean (t_nonce m) (t_root m) ->
       authPathHash ap leaf = Ok (fresh_hash (t_nonce m) (t_root m))).
  Proof.
    intros I L. pose proof (ti_wf _ _ _ I) as W.
    destruct (get_loop_spec Hlen nb (ToBits i) (t_root m) [] []) as
      (q & ps & lf & E & Lps & Fps & Pq & Wq & NI & In1 & In2 & HH); auto.
    { rewrite ToBits_length. lia. }
    cbn [app length] in *.
    assert (EQ : 1 <= length q).
    { pose proof (ti_dense _ _ _ I) as D. destruct (t_root m) as [| |lvl lh rh l r] eqn:R; simpl in D; try tauto.
      rewrite <- Lps. cbn [get_loop] in E.
      destruct (index (ToBits i) 0) as [dir|]; cbn [bind] in E; try discriminate.
      destruct dir; apply get_loop_mono in E; exact E. }
    unfold Get. rewrite E. cbn [bind].
    destruct lf as [lvl ix|lvl d|lvl lh rh l r].
    - (* empty *)
      simpl in Wq. destruct Wq as (-> & -> & LQ).
      cbn [proof_leaf bind]. do 2 eexists. split; [reflexivity|]. cbn [ap_leaf ap_nonce ap_lookup ap_pruned].
      split; [reflexivity|]. cbn [pn_level pn_index pn_value pn_empty pn_com].
      split; auto. split; auto. split; [exact Lps|]. split; auto. split; [lia|].
      split; [|split].
      + rewrite ToBits_ToBytes, Pq, firstn_app, firstn_all, Nat.sub_diag. simpl. apply app_nil_r.
      + destruct (f i) as [b|] eqn:Fi.
        * exfalso. apply (leaf_in_tree nb m f i b I) in Fi.
          apply In2 in Fi; [|reflexivity]. exact Fi.
        * split; auto. left. repeat split; auto; [congruence|].
          intros j b Fj Epre.
          (* a leaf under this prefix would be in the empty node *)
          pose proof (proj2 (leaf_in_tree nb m f j b I) Fj) as Ij.
          destruct (get_loop_spec Hlen nb (ToBits j) (t_root m) [] []) as
            (q2 & ps2 & lf2 & E2 & Lps2 & _ & Pq2 & Wq2 & NI2 & _ & In22 & _); auto.
          { rewrite ToBits_length. rewrite (tree_inv_len nb m f j b I Fj). lia. }
          cbn [app length] in *. specialize (In22 _ Ij eq_refl).
          (* both descents agree as long as the bits agree *)
          assert (AG : forall n b1 b2 k dd acc x,
             firstn k b1 = firstn k b2 -> get_loop b1 dd n acc = Ok x ->
             length (fst x) - length acc + dd <= k -> get_loop b2 dd n acc = Ok x).
          { clear. induction n as [| |? ? ? l IHl r IHr]; intros b1 b2 k dd acc x F G K; cbn [get_loop] in *; auto.
            assert (MON : forall n acc dd x, get_loop b1 dd n acc = Ok x -> length acc <= length (fst x))
              by (intros ? ? ? [? ?]; apply get_loop_mono).
            destruct (index b1 dd) as [dir|] eqn:ID; cbn [bind] in G; try discriminate.
            assert (K2 : dd < k).
            { destruct dir; apply MON in G; rewrite app_length in G; simpl in G; lia. }
            assert (ID2 : index b2 dd = Ok dir).
            { apply index_ok in ID. apply index_ok.
              rewrite <- (nth_error_firstn_lt k) by auto. rewrite <- F.
              rewrite nth_error_firstn_lt by auto. exact ID. }
            rewrite ID2. cbn [bind]. destruct dir.
            - pose proof (MON _ _ _ _ G) as M. rewrite app_length in M. simpl in M.
              eapply IHr; eauto. rewrite app_length. simpl. lia.
            - pose proof (MON _ _ _ _ G) as M. rewrite app_length in M. simpl in M.
              eapply IHl; eauto. rewrite app_length. simpl. lia. }
          apply (AG _ _ (ToBits j) (length q)) in E; [|symmetry; exact Epre|simpl; lia].
          rewrite E in E2. injection E2 as <- <-. exact In22.
      + intros K. unfold authPathHash, pn_hash, pn_pre. cbn [pn_empty pn_index pn_level ap_nonce ap_pruned bind].
        specialize (HH _ K (ToBits (ToBytes q)) []). rewrite app_nil_r in HH. apply HH; auto.
        rewrite ToBits_ToBytes, firstn_app, firstn_all, Nat.sub_diag. simpl. apply app_nil_r.
    - simpl in Wq. destruct Wq as (-> & Lx & Px).
      assert (LQ : length q <= 8 * nb).
      { rewrite <- Px at 1. rewrite firstn_length, ToBits_length. lia. }
      assert (Id : In d (leaves (t_root m))) by (apply In1; simpl; auto).
      apply (ti_leaves _ _ _ I) in Id. destruct Id as (j & b & Fj & ->).
      cbn [proof_leaf]. cbn [l_index l_value l_com leaf_of] in *.
      assert (HHH : clean (t_nonce m) (t_root m) ->
         aph_loop (ToBits j) ps (length q) (shake (leaf_pre (t_nonce m) j (length q) (c_value (commit_of b)))) =
         Ok (fresh_hash (t_nonce m) (t_root m))).
      { intros K. specialize (HH _ K (ToBits j) []). rewrite app_nil_r in HH. apply HH; auto. }
      destruct (beq_spec j i) as [->|N]; cbn [bind].
      + do 2 eexists. split; [reflexivity|]. cbn [ap_leaf ap_nonce ap_lookup ap_pruned].
        split; [reflexivity|]. cbn [pn_level pn_index pn_value pn_empty pn_com].
        repeat (split; [solve [auto; lia | congruence]|]).
        split; [rewrite Fj; reflexivity|].
        intro K. unfold authPathHash, pn_hash, pn_pre. cbn [pn_empty pn_index pn_level pn_com ap_nonce ap_pruned bind].
        auto.
      + do 2 eexists. split; [reflexivity|]. cbn [ap_leaf ap_nonce ap_lookup ap_pruned].
        split; [reflexivity|]. cbn [pn_level pn_index pn_value pn_empty pn_com].
        repeat (split; [solve [auto; lia | congruence]|]).
        split.
        * destruct (f i) as [b'|] eqn:Fi.
          -- exfalso. apply (leaf_in_tree nb m f i b' I) in Fi. apply In2 in Fi; auto.
             simpl in Fi. destruct Fi as [Fi|[]]. injection Fi as _ _ Fi _. auto.
          -- split; auto. right. repeat split; auto. exists b. auto.
        * intro K. unfold authPathHash, pn_hash, pn_pre. cbn [pn_empty pn_index pn_level pn_com c_value ap_nonce ap_pruned bind].
          auto.
    - exfalso. eapply NI; reflexivity.
  Qed.
End Hist.
