(** Soundness lemmas about authentication paths and root hashes. *)
From Coq Require Import List NArith Lia Bool Arith.
From Verif Require Import Base Utils Crypto Tree TreeFacts TreeSpec TreeHist.
Import ListNotations.

(** No empty branch deeper than [k]. *)
Fixpoint shallow (k : nat) (n : node) : Prop :=
  match n with
  | Empty lvl _ => lvl <= k
  | Leaf _ _ => True
  | Interior _ _ _ l r => shallow k l /\ shallow k r
  end.

Section Path.
  Context {C : Crypto} (OK : CryptoOk C).
  Let Hlen := ok_shake_len _ OK.

  (** ** Paths as lists of (direction, sibling hash), root first *)

  Lemma hash_up_app a b h : hash_up (a ++ b) h = hash_up a (hash_up b h).
  Proof. unfold hash_up. apply fold_right_app. Qed.

  Lemma hash_up_length sibs h : length h = 32 -> length (hash_up sibs h) = 32.
  Proof. destruct sibs; simpl; auto. Qed.

  Lemma firstn_nth_snoc {A} (l : list A) n a : nth_error l n = Some a -> firstn (S n) l = firstn n l ++ [a].
  Proof.
    revert n; induction l as [|y l IH]; intros n H; destruct n; try discriminate.
    - injection H as ->. reflexivity.
    - simpl in *. f_equal. apply IH. exact H.
  Qed.

  Lemma skipn_S_tl {A} n (l : list A) a t : skipn n l = a :: t -> skipn (S n) l = t.
  Proof.
    revert l; induction n; intros l H.
    - simpl in H. subst l. reflexivity.
    - destruct l; [discriminate|]. apply IHn in H. exact H.
  Qed.

  Lemma nth_error_lt {A} (l : list A) n a : nth_error l n = Some a -> n < length l.
  Proof. intro H. apply nth_error_Some. congruence. Qed.

  Lemma combine_snoc {A B} (a : list A) (b : list B) x y :
    length a = length b -> combine (a ++ [x]) (b ++ [y]) = combine a b ++ [(x, y)].
  Proof.
    revert b; induction a; destruct b; simpl; intros; try lia; auto. f_equal. auto.
  Qed.

  Lemma aph_loop_up bits pruned l : forall h0 h,
    aph_loop bits pruned l h0 = Ok h ->
    l <= length bits /\ l <= length pruned /\ h = hash_up (sibs_of bits pruned l) h0.
  Proof.
    induction l; intros h0 h H; cbn [aph_loop] in H.
    - injection H as <-. repeat split; try lia; reflexivity.
    - destruct (index bits l) as [b|] eqn:Eb; cbn [bind] in H; try discriminate.
      destruct (index pruned l) as [p|] eqn:Ep; cbn [bind] in H; try discriminate.
      apply index_ok in Eb, Ep. apply IHl in H. destruct H as (L1 & L2 & ->).
      pose proof (nth_error_lt _ _ _ Eb). pose proof (nth_error_lt _ _ _ Ep).
      split; [lia|]. split; [lia|].
      unfold sibs_of. rewrite (firstn_nth_snoc _ _ _ Eb), (firstn_nth_snoc _ _ _ Ep).
      rewrite combine_snoc by (rewrite !firstn_length; lia).
      rewrite hash_up_app. f_equal. simpl. unfold node_in. simpl. unfold Digest.
      destruct b; simpl; rewrite app_nil_r; reflexivity.
  Qed.

  Lemma sibs_of_length bits pruned l :
    l <= length bits -> l <= length pruned -> length (sibs_of bits pruned l) = l.
  Proof. intros. unfold sibs_of. rewrite combine_length, !firstn_length. lia. Qed.

  Lemma sibs_of_fst bits pruned l :
    l <= length bits -> l <= length pruned -> map fst (sibs_of bits pruned l) = firstn l bits.
  Proof.
    intros. unfold sibs_of. 
    assert (G : forall (a : list bool) (b : list bytes), length a = length b -> map fst (combine a b) = a).
    { induction a; destruct b; simpl; intros; try lia; auto. f_equal; auto. }
    apply G. rewrite !firstn_length. lia.
  Qed.

  Lemma sibs_of_snd bits pruned l :
    Forall (fun h => length h = 32) pruned -> Forall (fun s => length (snd s) = 32) (sibs_of bits pruned l).
  Proof.
    intro F. unfold sibs_of. apply Forall_forall. intros [b p] I. simpl.
    apply in_combine_r in I. rewrite Forall_forall in F. apply F.
    rewrite <- (firstn_skipn l pruned). apply in_or_app. auto.
  Qed.

  Lemma node_in_length (s : bool * bytes) (h : bytes) : length (snd s) = 32 -> length h = 32 -> length (node_in s h) = 64.
  Proof. intros. unfold node_in. destruct (fst s); rewrite app_length; lia. Qed.

  Lemma node_in_inj (s1 s2 : bool * bytes) (h1 h2 : bytes) : fst s1 = fst s2 -> length h1 = length h2 ->
    node_in s1 h1 = node_in s2 h2 -> snd s1 = snd s2 /\ h1 = h2.
  Proof.
    unfold node_in. intros F L E. rewrite F in E. destruct (fst s2).
    - apply app_inj_len_r in E; auto.
    - apply app_inj_len in E; tauto.
  Qed.

  Lemma coll_cons_r (xs ys : list bytes) y : collision_between xs ys -> collision_between xs (y :: ys).
  Proof. intros (a & b & A & B & D). exists a, b. simpl. auto. Qed.
  Lemma coll_cons_l (xs ys : list bytes) y : collision_between xs ys -> collision_between (y :: xs) ys.
  Proof. intros (a & b & A & B & D). exists a, b. simpl. auto. Qed.
  Lemma coll_incl (xs ys xs' ys' : list bytes) :
    collision_between xs ys -> incl xs xs' -> incl ys ys' -> collision_between xs' ys'.
  Proof. intros (a & b & A & B & D) I J. exists a, b. auto. Qed.
  Lemma coll_in (xs ys : list bytes) x y :
    In x xs -> In y ys -> shake x = shake y -> x <> y -> collision_between xs ys.
  Proof. intros. exists x, y. repeat split; auto. Qed.
  Lemma eq_or_coll (xs ys : list bytes) x y :
    In x xs -> In y ys -> shake x = shake y -> collision_between xs ys \/ x = y.
  Proof.
    intros. destruct (bytes_eq_dec x y); auto. left. eapply coll_in; eauto.
  Qed.

  (** Two paths with the same top hash that turn the same way. *)
  Lemma two_paths x1 x2 : forall s1 s2,
    Forall (fun s => length (snd s) = 32) s1 -> Forall (fun s => length (snd s) = 32) s2 ->
    (forall k b1 b2, nth_error (map fst s1) k = Some b1 -> nth_error (map fst s2) k = Some b2 -> b1 = b2) ->
    hash_up s1 (shake x1) = hash_up s2 (shake x2) ->
    collision_between (x1 :: up_inputs s1 (shake x1)) (x2 :: up_inputs s2 (shake x2)) \/
    (length s1 = length s2 /\ x1 = x2) \/
    (length s1 < length s2 /\ length x1 = 64) \/
    (length s2 < length s1 /\ length x2 = 64).
  Proof.
    induction s1 as [|a s1 IH]; intros s2 F1 F2 B E.
    - destruct s2 as [|b s2]; cbn [hash_up fold_right up_inputs length] in *.
      + destruct (eq_or_coll [x1] [x2] x1 x2) as [|]; simpl; auto.
      + inversion F2; subst.
        destruct (eq_or_coll (x1 :: []) (x2 :: node_in b (hash_up s2 (shake x2)) :: up_inputs s2 (shake x2))
                    x1 (node_in b (hash_up s2 (shake x2)))) as [|Eq]; simpl; auto.
        right. right. left. split; [lia|]. rewrite Eq.
        apply node_in_length; auto. apply hash_up_length; auto.
    - inversion F1; subst. destruct s2 as [|b s2]; cbn [hash_up fold_right up_inputs length] in *.
      + destruct (eq_or_coll (x1 :: node_in a (hash_up s1 (shake x1)) :: up_inputs s1 (shake x1)) (x2 :: [])
                    (node_in a (hash_up s1 (shake x1))) x2) as [|Eq]; simpl; auto.
        right. right. right. split; [lia|]. rewrite <- Eq.
        apply node_in_length; auto. apply hash_up_length; auto.
      + inversion F2; subst.
        destruct (eq_or_coll
          (x1 :: node_in a (hash_up s1 (shake x1)) :: up_inputs s1 (shake x1))
          (x2 :: node_in b (hash_up s2 (shake x2)) :: up_inputs s2 (shake x2))
          (node_in a (hash_up s1 (shake x1))) (node_in b (hash_up s2 (shake x2)))) as [|Eq]; simpl; auto.
        apply node_in_inj in Eq.
        2:{ apply (B 0); reflexivity. }
        2:{ rewrite !hash_up_length by apply Hlen. reflexivity. }
        destruct Eq as [_ Eq].
        destruct (IH s2 H2 H4) as [Co|[Co|[Co|Co]]]; auto.
        * intros k b1 b2 N1 N2. apply (B (S k)); auto.
        * left. eapply coll_incl; [exact Co| |]; intros z; simpl; tauto.
        * right. left. destruct Co. split; auto.
        * right. right. left. destruct Co. split; auto. lia.
        * right. right. right. destruct Co. split; auto. lia.
  Qed.

  (** ** Trees *)

  Lemma fresh_pre nonce n : fresh_hash nonce n = shake (node_pre nonce n).
  Proof. destruct n; reflexivity. Qed.

  Lemma node_pre_in nonce n : In (node_pre nonce n) (node_inputs nonce n).
  Proof. destruct n; simpl; auto. Qed.

  Lemma path_tree nb nonce x bits n : forall pre sibs,
    wf nb pre n ->
    Forall (fun s => length (snd s) = 32) sibs ->
    map fst sibs = firstn (length sibs) (skipn (length pre) bits) ->
    firstn (length pre) bits = pre ->
    hash_up sibs (shake x) = fresh_hash nonce n ->
    collision_between (x :: up_inputs sibs (shake x)) (node_inputs nonce n) \/
    exists q s,
      wf nb (pre ++ q) s /\ firstn (length (pre ++ q)) bits = pre ++ q /\
      incl (leaves s) (leaves n) /\
      (forall d, In d (leaves n) -> ToBits (l_index d) = bits -> In d (leaves s)) /\
      (forall k, shallow k n -> shallow k s) /\
      ((length q = length sibs /\ node_pre nonce s = x) \/
       (length q < length sibs /\ (forall lvl lh rh l r, s <> Interior lvl lh rh l r) /\
        length (node_pre nonce s) = 64)).
  Proof.
    induction n as [lvl i|lvl d|lvl lh rh l IHl r IHr]; intros pre sibs W F B Pb E.
    - destruct sibs as [|a sibs].
      + cbn [hash_up fold_right] in E. rewrite fresh_pre in E.
        destruct (eq_or_coll (x :: up_inputs [] (shake x)) (node_inputs nonce (Empty lvl i)) x (node_pre nonce (Empty lvl i))) as [|Eq]; simpl; auto.
        right. exists [], (Empty lvl i). rewrite !app_nil_r. split; [exact W|]. split; [exact Pb|].
        split; [intros z; auto|]. split; [auto|]. split; [auto|]. left. auto.
      + cbn [hash_up fold_right] in E. fold (hash_up sibs (shake x)) in E. rewrite fresh_pre in E.
        inversion F; subst.
        destruct (eq_or_coll (x :: up_inputs (a :: sibs) (shake x)) (node_inputs nonce (Empty lvl i))
                   (node_in a (hash_up sibs (shake x))) (node_pre nonce (Empty lvl i))) as [|Eq]; simpl; auto.
        right. exists [], (Empty lvl i). rewrite !app_nil_r. split; [exact W|]. split; [exact Pb|].
        split; [intros z; auto|]. split; [auto|]. split; [auto|]. right.
        split; [simpl; lia|]. split; [congruence|].
        transitivity (length (node_pre nonce (Empty lvl i))); [reflexivity|]. rewrite <- Eq. apply node_in_length; auto. apply hash_up_length; auto.
    - destruct sibs as [|a sibs].
      + cbn [hash_up fold_right] in E. rewrite fresh_pre in E.
        destruct (eq_or_coll (x :: up_inputs [] (shake x)) (node_inputs nonce (Leaf lvl d)) x (node_pre nonce (Leaf lvl d))) as [|Eq]; simpl; auto.
        right. exists [], (Leaf lvl d). rewrite !app_nil_r. split; [exact W|]. split; [exact Pb|].
        split; [intros z; auto|]. split; [auto|]. split; [auto|]. left. auto.
      + cbn [hash_up fold_right] in E. fold (hash_up sibs (shake x)) in E. rewrite fresh_pre in E.
        inversion F; subst.
        destruct (eq_or_coll (x :: up_inputs (a :: sibs) (shake x)) (node_inputs nonce (Leaf lvl d))
                   (node_in a (hash_up sibs (shake x))) (node_pre nonce (Leaf lvl d))) as [|Eq]; simpl; auto.
        right. exists [], (Leaf lvl d). rewrite !app_nil_r. split; [exact W|]. split; [exact Pb|].
        split; [intros z; auto|]. split; [auto|]. split; [auto|]. right.
        split; [simpl; lia|]. split; [congruence|].
        transitivity (length (node_pre nonce (Leaf lvl d))); [reflexivity|]. rewrite <- Eq. apply node_in_length; auto. apply hash_up_length; auto.
    - destruct sibs as [|a sibs].
      + cbn [hash_up fold_right] in E. rewrite fresh_pre in E.
        destruct (eq_or_coll (x :: up_inputs [] (shake x)) (node_inputs nonce (Interior lvl lh rh l r)) x (node_pre nonce (Interior lvl lh rh l r))) as [|Eq]; simpl; auto.
        right. exists [], (Interior lvl lh rh l r). rewrite !app_nil_r. split; [exact W|]. split; [exact Pb|].
        split; [intros z; auto|]. split; [auto|]. split; [auto|]. left. auto.
      + cbn [hash_up fold_right] in E. fold (hash_up sibs (shake x)) in E. rewrite fresh_pre in E.
        inversion F as [|? ? Fa Fs]; subst.
        simpl in W. destruct W as (El & LP & Wl & Wr).
        destruct (eq_or_coll (x :: up_inputs (a :: sibs) (shake x)) (node_inputs nonce (Interior lvl lh rh l r))
                   (node_in a (hash_up sibs (shake x))) (node_pre nonce (Interior lvl lh rh l r))) as [|Eq]; simpl; auto.
        destruct a as [b p]. simpl in Fa.
        assert (Nb : nth_error bits (length pre) = Some b).
        { simpl in B. rewrite <- (firstn_skipn (length pre) bits).
          rewrite nth_error_app2; rewrite firstn_length; [|lia].
          destruct (skipn (length pre) bits) as [|b' sk] eqn:SK; simpl in B; [discriminate|].
          injection B as -> _.
          assert (length pre <= length bits).
          { destruct (Nat.le_gt_cases (length pre) (length bits)); auto. rewrite skipn_all2 in SK by lia. discriminate. }
          rewrite Nat.min_l, Nat.sub_diag by lia. reflexivity. }
        assert (Pb' : firstn (length (pre ++ [b])) bits = pre ++ [b]) by (apply prefix_snoc; auto).
        assert (B' : map fst sibs = firstn (length sibs) (skipn (length (pre ++ [b])) bits)).
        { simpl in B. destruct (skipn (length pre) bits) as [|b' sk] eqn:SK; simpl in B; [discriminate|].
          injection B as -> B. rewrite B. f_equal. rewrite app_length. simpl.
          rewrite Nat.add_1_r. apply skipn_S_tl in SK. exact (eq_sym SK). }
        unfold node_in in Eq. simpl in Eq.
        assert (G : forall ch, ch = (if b then r else l) -> wf nb (pre ++ [b]) ch ->
          hash_up sibs (shake x) = fresh_hash nonce ch ->
          (collision_between (x :: up_inputs sibs (shake x)) (node_inputs nonce ch) \/
           exists q s, wf nb ((pre ++ [b]) ++ q) s /\ firstn (length ((pre ++ [b]) ++ q)) bits = (pre ++ [b]) ++ q /\
             incl (leaves s) (leaves ch) /\
             (forall d, In d (leaves ch) -> ToBits (l_index d) = bits -> In d (leaves s)) /\
             (forall k, shallow k ch -> shallow k s) /\
             ((length q = length sibs /\ node_pre nonce s = x) \/
              (length q < length sibs /\ (forall lvl lh rh l r, s <> Interior lvl lh rh l r) /\
               length (node_pre nonce s) = 64))) ->
          collision_between (x :: up_inputs ((b, p) :: sibs) (shake x)) (node_inputs nonce (Interior lvl lh rh l r)) \/
          exists q s, wf nb (pre ++ q) s /\ firstn (length (pre ++ q)) bits = pre ++ q /\
             incl (leaves s) (leaves (Interior lvl lh rh l r)) /\
             (forall d, In d (leaves (Interior lvl lh rh l r)) -> ToBits (l_index d) = bits -> In d (leaves s)) /\
             (forall k, shallow k (Interior lvl lh rh l r) -> shallow k s) /\
             ((length q = length ((b, p) :: sibs) /\ node_pre nonce s = x) \/
              (length q < length ((b, p) :: sibs) /\ (forall lvl lh rh l r, s <> Interior lvl lh rh l r) /\
               length (node_pre nonce s) = 64))).
        { intros ch Ec Wc Eh [Co|(q & s & Ws & Ps & In1 & In2 & Dn & Cs)].
          - left. eapply coll_incl; [exact Co| |].
            + intros z; simpl; tauto.
            + intros z Hz. simpl. rewrite in_app_iff. destruct b; subst ch; auto.
          - right. exists (b :: q), s.
            assert (Q : pre ++ b :: q = (pre ++ [b]) ++ q) by (rewrite <- app_assoc; reflexivity).
            rewrite Q. split; auto. split; auto. split; [|split; [|split]].
            + intros z Hz. apply In1 in Hz. simpl. rewrite in_app_iff. destruct b; subst ch; auto.
            + intros d Hd Eb. apply In2; auto. simpl in Hd. rewrite in_app_iff in Hd. subst ch.
              destruct Hd as [Hd|Hd].
              * pose proof (wf_leaves _ _ _ _ Wl Hd) as [_ FF]. rewrite Eb in FF.
                apply prefix_nth in FF. destruct FF as [FF _]. destruct b; [congruence|auto].
              * pose proof (wf_leaves _ _ _ _ Wr Hd) as [_ FF]. rewrite Eb in FF.
                apply prefix_nth in FF. destruct FF as [FF _]. destruct b; [auto|congruence].
            + simpl. intros k (D1 & D2). apply Dn. destruct b; subst ch; auto.
            + destruct Cs as [[A1 A2]|(A1 & A2 & A3)]; [left|right]; simpl; repeat split; auto; lia. }
        destruct b.
        * apply app_inj_len_r in Eq; [|rewrite hash_up_length by apply Hlen; rewrite fresh_length; auto].
          destruct Eq as [_ Eq]. apply (G r); auto.
        * apply app_inj_len in Eq; [|rewrite hash_up_length by apply Hlen; rewrite fresh_length; auto].
          destruct Eq as [Eq _]. apply (G l); auto.
  Qed.
End Path.
