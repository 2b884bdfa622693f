(** Lemmas about the tree model of [Tree.v]. *)
From Coq Require Import List NArith Lia Bool Arith.
From Verif Require Import Base Utils Crypto Tree TreeSpec.
Import ListNotations.

(** ** Shape invariant *)

(** [wf nb pre n]: [n] hangs at the position given by the bits [pre] in a tree
    over [nb]-byte indices. *)
Fixpoint wf (nb : nat) (pre : list bool) (n : node) : Prop :=
  match n with
  | Empty lvl i => lvl = length pre /\ i = ToBytes pre /\ length pre <= 8 * nb
  | Leaf lvl d =>
      lvl = length pre /\ length (l_index d) = nb /\
      firstn (length pre) (ToBits (l_index d)) = pre
  | Interior lvl _ _ l r =>
      lvl = length pre /\ length pre < 8 * nb /\
      wf nb (pre ++ [false]) l /\ wf nb (pre ++ [true]) r
  end.

(** Every interior node below the root has at least two leaves under it. *)
Fixpoint dense (n : node) : Prop :=
  match n with
  | Interior _ _ _ l r => 2 <= length (leaves l ++ leaves r) /\ dense l /\ dense r
  | _ => True
  end.
Definition root_dense (n : node) : Prop :=
  match n with
  | Interior _ _ _ l r => dense l /\ dense r
  | _ => False
  end.

Lemma wf_leaves nb pre n d :
  wf nb pre n -> In d (leaves n) ->
  length (l_index d) = nb /\ firstn (length pre) (ToBits (l_index d)) = pre.
Proof.
  revert pre; induction n as [lvl i|lvl d'|lvl lh rh l IHl r IHr]; simpl; intros pre W I.
  - tauto.
  - destruct I as [<-|[]]. tauto.
  - destruct W as (_ & L & Wl & Wr). rewrite in_app_iff in I.
    assert (G : forall b, length (l_index d) = nb /\
        firstn (length (pre ++ [b])) (ToBits (l_index d)) = pre ++ [b] ->
        length (l_index d) = nb /\ firstn (length pre) (ToBits (l_index d)) = pre).
    { intros b [A B]. split; auto. apply (f_equal (firstn (length pre))) in B.
      rewrite firstn_firstn, app_length in B. simpl in B.
      replace (Nat.min (length pre) (length pre + 1)) with (length pre) in B by lia.
      rewrite B, firstn_app, firstn_all, Nat.sub_diag. simpl. apply app_nil_r. }
    destruct I as [I|I]; eauto.
Qed.

Lemma prefix_nth (pre bits : list bool) b :
  firstn (length (pre ++ [b])) bits = pre ++ [b] ->
  nth_error bits (length pre) = Some b /\ firstn (length pre) bits = pre.
Proof.
  intro H. split.
  - rewrite <- (firstn_skipn (length (pre ++ [b])) bits), H.
    rewrite <- app_assoc, nth_error_app2, Nat.sub_diag by lia. reflexivity.
  - apply (f_equal (firstn (length pre))) in H.
    rewrite firstn_firstn, app_length in H. simpl in H.
    replace (Nat.min (length pre) (length pre + 1)) with (length pre) in H by lia.
    rewrite H, firstn_app, firstn_all, Nat.sub_diag. simpl. apply app_nil_r.
Qed.

Lemma prefix_snoc (pre bits : list bool) b :
  firstn (length pre) bits = pre -> nth_error bits (length pre) = Some b ->
  firstn (length (pre ++ [b])) bits = pre ++ [b].
Proof.
  intros H N. rewrite app_length. simpl. rewrite Nat.add_1_r.
  revert bits H N. induction pre as [|x pre IH]; intros bits H N.
  - destruct bits; simpl in *; congruence.
  - destruct bits as [|y bits]; simpl in *; [congruence|].
    injection H as -> H. f_equal. apply IH; auto.
Qed.

(** A leaf of the tree is determined by its index. *)
Lemma wf_unique nb pre n d1 d2 :
  wf nb pre n -> In d1 (leaves n) -> In d2 (leaves n) ->
  l_index d1 = l_index d2 -> d1 = d2.
Proof.
  revert pre; induction n as [lvl i|lvl d'|lvl lh rh l IHl r IHr]; simpl; intros pre W I1 I2 E.
  - tauto.
  - destruct I1 as [<-|[]], I2 as [<-|[]]; auto.
  - destruct W as (_ & L & Wl & Wr). rewrite in_app_iff in I1, I2.
    assert (X : forall a b, In a (leaves l) -> In b (leaves r) -> l_index a <> l_index b).
    { intros a b Ia Ib E'. apply (wf_leaves _ _ _ _ Wl) in Ia.
      apply (wf_leaves _ _ _ _ Wr) in Ib. rewrite E' in Ia.
      destruct Ia as [_ Ia], Ib as [_ Ib].
      apply prefix_nth in Ia, Ib. destruct Ia as [Ia _], Ib as [Ib _]. congruence. }
    destruct I1 as [I1|I1], I2 as [I2|I2]; eauto.
    + destruct (X _ _ I1 I2); auto.
    + destruct (X _ _ I2 I1); auto.
Qed.

Lemma wf_NoDup nb pre n : wf nb pre n -> NoDup (map l_index (leaves n)).
Proof.
  revert pre; induction n as [lvl i|lvl d'|lvl lh rh l IHl r IHr]; simpl; intros pre W.
  - constructor.
  - constructor; [simpl; tauto|constructor].
  - destruct W as (_ & L & Wl & Wr). rewrite map_app.
    assert (A : NoDup (map l_index (leaves l))) by eauto.
    assert (B : NoDup (map l_index (leaves r))) by eauto.
    assert (X : forall x, In x (map l_index (leaves l)) -> ~ In x (map l_index (leaves r))).
    { intros x Ix Iy. apply in_map_iff in Ix, Iy.
      destruct Ix as (a & Ea & Ia), Iy as (b & Eb & Ib).
      apply (wf_leaves _ _ _ _ Wl) in Ia. apply (wf_leaves _ _ _ _ Wr) in Ib.
      rewrite Ea in Ia. rewrite Eb in Ib.
      destruct Ia as [_ Ia], Ib as [_ Ib].
      apply prefix_nth in Ia, Ib. destruct Ia as [Ia _], Ib as [Ib _]. congruence. }
    clear - A B X. induction (map l_index (leaves l)); simpl; auto.
    inversion A; subst. constructor.
    + rewrite in_app_iff. intros [H|H]; auto. apply (X a); simpl; auto.
    + apply IHl0; auto. intros; apply X; simpl; auto.
Qed.

Lemma wf_same_prefix_lt nb pre a b :
  length a = nb -> length b = nb -> a <> b ->
  firstn (length pre) (ToBits a) = pre -> firstn (length pre) (ToBits b) = pre ->
  length pre < 8 * nb.
Proof.
  intros La Lb N Pa Pb. destruct (Nat.lt_ge_cases (length pre) (8 * nb)); auto.
  exfalso. apply N. apply ToBits_inj.
  rewrite <- (firstn_all2 (n := length pre) (ToBits a)) by (rewrite ToBits_length; lia).
  rewrite <- (firstn_all2 (n := length pre) (ToBits b)) by (rewrite ToBits_length; lia).
  congruence.
Qed.

Lemma two_in {A} (l : list A) a b : In a l -> In b l -> a <> b -> 2 <= length l.
Proof.
  destruct l as [|x [|y l]]; simpl; intros; try lia; intuition congruence.
Qed.

(** Insertion: total, keeps the shape, and changes exactly one leaf. *)
Lemma insert_spec nb d rem : forall pre n,
  length (l_index d) = nb ->
  ToBits (l_index d) = pre ++ rem ->
  wf nb pre n -> isEmpty n = false ->
  exists n', insert d (ToBits (l_index d)) rem (length pre) n = Ok n' /\
    wf nb pre n' /\ isEmpty n' = false /\
    (forall x, In x (leaves n') <-> x = d \/ (In x (leaves n) /\ l_index x <> l_index d)) /\
    length (leaves n) <= length (leaves n') /\
    (dense n -> dense n') /\
    (root_dense n -> root_dense n').
Proof.
  induction rem as [|b rem IH]; intros pre n Ld Eb W NE.
  - (* no bits left: only a leaf with the same index can be here *)
    rewrite app_nil_r in Eb.
    assert (LP : length pre = 8 * nb) by (rewrite <- Eb, ToBits_length; lia).
    destruct n as [lvl i|lvl old|lvl lh rh l r]; simpl in NE; try discriminate.
    + simpl in W. destruct W as (-> & Lo & Po).
      assert (E : l_index old = l_index d).
      { apply ToBits_inj. rewrite Eb, <- Po. symmetry. apply firstn_all2.
        rewrite ToBits_length. lia. }
      simpl. rewrite E, beq_refl. eexists; split; [reflexivity|]. simpl.
      repeat split; auto.
      * rewrite Eb. apply firstn_all.
      * intuition.
      * intros [H|[H H0]]; [auto|]. intuition; subst. congruence.
    + simpl in W. lia.
  - assert (Pd : firstn (length pre) (ToBits (l_index d)) = pre).
    { rewrite Eb, firstn_app, firstn_all, Nat.sub_diag. simpl. apply app_nil_r. }
    assert (Nd : nth_error (ToBits (l_index d)) (length pre) = Some b).
    { rewrite Eb, nth_error_app2, Nat.sub_diag by lia. reflexivity. }
    assert (Eb' : ToBits (l_index d) = (pre ++ [b]) ++ rem) by (rewrite Eb, <- app_assoc; reflexivity).
    assert (LP : length pre < 8 * nb).
    { rewrite <- Ld, <- ToBits_length, Eb, app_length. simpl. lia. }
    (* the step on an interior node *)
    assert (DOWN : forall lvl lh rh l r, wf nb pre (Interior lvl lh rh l r) ->
      exists n',
        (if b then
          if isEmpty r then Ok (Interior lvl lh None l (Leaf (length pre + 1) d))
          else do r' <- insert d (ToBits (l_index d)) rem (length pre + 1) r; Ok (Interior lvl lh None l r')
        else
          if isEmpty l then Ok (Interior lvl None rh (Leaf (length pre + 1) d) r)
          else do l' <- insert d (ToBits (l_index d)) rem (length pre + 1) l; Ok (Interior lvl None rh l' r))
        = Ok n' /\
        wf nb pre n' /\ isEmpty n' = false /\
        (forall x, In x (leaves n') <-> x = d \/ (In x (leaves l ++ leaves r) /\ l_index x <> l_index d)) /\
        length (leaves l ++ leaves r) <= length (leaves n') /\
        root_dense n' = root_dense n' /\
        (dense l /\ dense r -> root_dense n')).
    { intros lvl lh rh l r (El & _ & Wl & Wr).
      assert (OUT : forall c m x, wf nb (pre ++ [c]) m -> c <> b -> In x (leaves m) -> l_index x <> l_index d).
      { intros c m x Wm Ncb Ix E. apply (wf_leaves _ _ _ _ Wm) in Ix. destruct Ix as [_ Ix].
        rewrite E in Ix. apply prefix_nth in Ix. destruct Ix as [Ix _]. congruence. }
      assert (LL : length (pre ++ [b]) = length pre + 1) by (rewrite app_length; reflexivity).
      assert (LFW : wf nb (pre ++ [b]) (Leaf (length pre + 1) d)).
      { simpl. rewrite LL. repeat split; auto. rewrite <- LL. apply prefix_snoc; auto. }
      destruct b.
      - destruct (isEmpty r) eqn:Er.
        + eexists; split; [reflexivity|]. destruct r; try discriminate.
          simpl leaves. split; [simpl; auto|]. split; [reflexivity|]. split; [|split; [|split]].
          * intro x. rewrite !in_app_iff. simpl. pose proof (OUT false l x Wl ltac:(congruence)). intuition.
          * rewrite !app_length. simpl. lia.
          * reflexivity.
          * simpl. tauto.
        + destruct (IH (pre ++ [true]) r Ld Eb' Wr Er) as (r' & Ei & Wr' & Er' & Hin & Hlen & Hd & _).
          rewrite LL in Ei. rewrite Ei. cbn [bind]. eexists; split; [reflexivity|].
          split; [simpl; auto|]. split; [reflexivity|]. simpl leaves. split; [|split; [|split]].
          * intro x. rewrite !in_app_iff, Hin. pose proof (OUT false l x Wl ltac:(congruence)). intuition.
          * rewrite !app_length. lia.
          * reflexivity.
          * simpl. tauto.
      - destruct (isEmpty l) eqn:Er.
        + eexists; split; [reflexivity|]. destruct l; try discriminate.
          simpl leaves. split; [simpl; auto|]. split; [reflexivity|]. split; [|split; [|split]].
          * intro x. cbn [app]. simpl. pose proof (OUT true r x Wr ltac:(congruence)). intuition.
          * simpl. lia.
          * reflexivity.
          * simpl. tauto.
        + destruct (IH (pre ++ [false]) l Ld Eb' Wl Er) as (l' & Ei & Wl' & Er' & Hin & Hlen & Hd & _).
          rewrite LL in Ei. rewrite Ei. cbn [bind]. eexists; split; [reflexivity|].
          split; [simpl; auto|]. split; [reflexivity|]. simpl leaves. split; [|split; [|split]].
          * intro x. rewrite !in_app_iff, Hin. pose proof (OUT true r x Wr ltac:(congruence)). intuition.
          * rewrite !app_length. lia.
          * reflexivity.
          * simpl. tauto. }
    destruct n as [lvl i|lvl old|lvl lh rh l r]; simpl in NE; try discriminate.
    + (* leaf *)
      pose proof W as W0. simpl in W. destruct W as (El & Lo & Po). cbn [insert].
      destruct (beq (l_index old) (l_index d)) eqn:EQ.
      * apply beq_eq in EQ. eexists; split; [reflexivity|]. simpl.
        repeat split; auto; intuition; subst; congruence.
      * apply beq_neq in EQ. rewrite GetNthBit_ToBits.
        destruct (nth_error (ToBits (l_index old)) (length pre)) as [c|] eqn:Nc.
        2:{ apply nth_error_None in Nc. rewrite ToBits_length in Nc. lia. }
        unfold index. rewrite Nc. cbn [bind newInteriorNode].
        rewrite Pd.
        assert (LC : length (pre ++ [c]) = length pre + 1) by (rewrite app_length; reflexivity).
        assert (WN : wf nb pre (if c then
             Interior (length pre) None None (Empty (length pre + 1) (ToBytes (pre ++ [false]))) (Leaf (length pre + 1) old)
           else Interior (length pre) None None (Leaf (length pre + 1) old) (Empty (length pre + 1) (ToBytes (pre ++ [true]))))).
        { destruct c; simpl; rewrite !app_length; simpl; repeat split; auto; try lia.
          - rewrite <- LC. apply prefix_snoc; auto.
          - rewrite <- LC. apply prefix_snoc; auto. }
        destruct c.
        -- destruct (DOWN _ _ _ _ _ WN) as (n' & E & Wn' & NE' & Hin & Hlen & _ & Hd).
           exists n'. split; [exact E|]. split; auto. split; auto.
           simpl leaves in *. split; [|split; [|split]].
           ++ intro x. rewrite Hin. simpl. tauto.
           ++ simpl in *. lia.
           ++ intros _. destruct n' as [| |lvl' lh' rh' l' r']; simpl in NE'; try discriminate; simpl; auto.
              simpl in Hd. split; [|apply Hd; simpl; auto].
              apply (two_in _ d old).
              ** simpl in Hin. apply Hin. auto.
              ** simpl in Hin. apply Hin. right. auto.
              ** congruence.
           ++ simpl. tauto.
        -- destruct (DOWN _ _ _ _ _ WN) as (n' & E & Wn' & NE' & Hin & Hlen & _ & Hd).
           exists n'. split; [exact E|]. split; auto. split; auto.
           simpl leaves in *. split; [|split; [|split]].
           ++ intro x. rewrite Hin. simpl. tauto.
           ++ simpl in *. lia.
           ++ intros _. destruct n' as [| |lvl' lh' rh' l' r']; simpl in NE'; try discriminate; simpl; auto.
              simpl in Hd. split; [|apply Hd; simpl; auto].
              apply (two_in _ d old).
              ** simpl in Hin. apply Hin. auto.
              ** simpl in Hin. apply Hin. right. auto.
              ** congruence.
           ++ simpl. tauto.
    + destruct (DOWN _ _ _ _ _ W) as (n' & E & Wn' & NE' & Hin & Hlen & _ & Hd).
      exists n'. split; [exact E|]. split; auto. split; auto. simpl leaves.
      split; [exact Hin|]. split; [exact Hlen|]. split.
      * intros (H2 & Dl & Dr). specialize (Hd (conj Dl Dr)).
        destruct n' as [| |lvl' lh' rh' l' r']; simpl in Hd |- *; try tauto.
        simpl in Hlen. split; [lia|tauto].
      * intros Hrd. apply Hd. exact Hrd.
Qed.

(** ** Structure without caches *)

Fixpoint strip (n : node) : node :=
  match n with
  | Interior lvl _ _ l r => Interior lvl None None (strip l) (strip r)
  | _ => n
  end.

Lemma leaves_strip n : leaves (strip n) = leaves n.
Proof. induction n; simpl; congruence. Qed.
Lemma wf_strip nb pre n : wf nb pre (strip n) <-> wf nb pre n.
Proof.
  revert pre; induction n as [| |lvl lh rh l IHl r IHr]; simpl; intro pre; try tauto.
  rewrite IHl, IHr. tauto.
Qed.
Lemma dense_strip n : dense (strip n) <-> dense n.
Proof.
  induction n as [| |lvl lh rh l IHl r IHr]; simpl; try tauto.
  rewrite IHl, IHr, !leaves_strip. tauto.
Qed.
Lemma root_dense_strip n : root_dense (strip n) <-> root_dense n.
Proof. destruct n; simpl; try tauto. rewrite !dense_strip. tauto. Qed.
Lemma isEmpty_strip n : isEmpty (strip n) = isEmpty n.
Proof. destruct n; reflexivity. Qed.

(** Insertion does not look at the caches. *)
Lemma insert_strip d bits rem : forall depth n n',
  insert d bits rem depth n = Ok n' ->
  insert d bits rem depth (strip n) = Ok (strip n') \/
  exists s, insert d bits rem depth (strip n) = Ok s /\ strip s = strip n'.
Proof.
  intros depth n n' H. right. revert depth n n' H.
  induction rem as [|b rem IH]; intros depth n n' H.
  - destruct n as [lvl i|lvl old|lvl lh rh l r]; cbn [insert strip] in *; try discriminate.
    destruct (beq (l_index old) (l_index d)).
    + injection H as <-. eexists; split; reflexivity.
    + destruct (GetNthBit (l_index old) depth) as [[]|]; cbn [bind newInteriorNode] in H; discriminate.
  - destruct n as [lvl i|lvl old|lvl lh rh l r]; cbn [insert strip] in *; try discriminate.
    + exists n'. split; auto.
    + rewrite !isEmpty_strip.
      destruct b.
      * destruct (isEmpty r).
        -- injection H as <-. eexists; split; [reflexivity|]. simpl. f_equal.
           clear. induction l; simpl; congruence.
        -- destruct (insert d bits rem (depth + 1) r) as [r'|] eqn:E; cbn [bind] in H; try discriminate.
           injection H as <-. destruct (IH _ _ _ E) as (s & Es & Ss). rewrite Es. cbn [bind].
           eexists; split; [reflexivity|]. simpl. rewrite Ss. f_equal.
           clear. induction l; simpl; congruence.
      * destruct (isEmpty l).
        -- injection H as <-. eexists; split; [reflexivity|]. simpl. f_equal.
           clear. induction r; simpl; congruence.
        -- destruct (insert d bits rem (depth + 1) l) as [r'|] eqn:E; cbn [bind] in H; try discriminate.
           injection H as <-. destruct (IH _ _ _ E) as (s & Es & Ss). rewrite Es. cbn [bind].
           eexists; split; [reflexivity|]. simpl. rewrite Ss. f_equal.
           clear. induction r; simpl; congruence.
Qed.

(** ** Hashing *)
Section Hash.
  Context {C : Crypto}.

  Lemma fresh_strip nonce n : fresh_hash nonce (strip n) = fresh_hash nonce n.
  Proof. induction n; simpl; congruence. Qed.

  (** All hashes present and right. *)
  Fixpoint clean (nonce : bytes) (n : node) : Prop :=
    match n with
    | Interior _ lh rh l r =>
        lh = Some (fresh_hash nonce l) /\ rh = Some (fresh_hash nonce r) /\
        clean nonce l /\ clean nonce r
    | _ => True
    end.

  (** The hashes that are present are right, and nothing is missing below them. *)
  Fixpoint cached (nonce : bytes) (n : node) : Prop :=
    match n with
    | Interior _ lh rh l r =>
        (lh = None \/ lh = Some (fresh_hash nonce l) /\ clean nonce l) /\
        (rh = None \/ rh = Some (fresh_hash nonce r) /\ clean nonce r) /\
        cached nonce l /\ cached nonce r
    | _ => True
    end.

  Lemma clean_cached nonce n : clean nonce n -> cached nonce n.
  Proof. induction n; simpl; tauto. Qed.

  Lemma hash_node_spec nonce n :
    cached nonce n ->
    fst (hash_node nonce n) = fresh_hash nonce n /\
    clean nonce (snd (hash_node nonce n)) /\
    strip (snd (hash_node nonce n)) = strip n.
  Proof.
    induction n as [| |lvl lh rh l IHl r IHr]; simpl; try tauto.
    intros (Hl & Hr & Cl & Cr). specialize (IHl Cl). specialize (IHr Cr).
    destruct (hash_node nonce l) as [hl l'] eqn:El.
    destruct (hash_node nonce r) as [hr r'] eqn:Er.
    simpl in IHl, IHr. destruct IHl as (Fl & Kl & Sl), IHr as (Fr & Kr & Sr).
    assert (Xl : fresh_hash nonce l' = fresh_hash nonce l) by (rewrite <- fresh_strip, Sl, fresh_strip; auto).
    assert (Xr : fresh_hash nonce r' = fresh_hash nonce r) by (rewrite <- fresh_strip, Sr, fresh_strip; auto).
    assert (A : forall hh : option bytes, (hh = None \/ hh = Some (fresh_hash nonce l) /\ clean nonce l) ->
       exists a b, (match hh with Some h => (h, l) | None => (hl, l') end) = (a, b) /\
         a = fresh_hash nonce l /\ a = fresh_hash nonce b /\ clean nonce b /\ strip b = strip l).
    { intros hh [->|[-> K]]; do 2 eexists; split; try reflexivity; repeat split; auto; congruence. }
    assert (B : forall hh : option bytes, (hh = None \/ hh = Some (fresh_hash nonce r) /\ clean nonce r) ->
       exists a b, (match hh with Some h => (h, r) | None => (hr, r') end) = (a, b) /\
         a = fresh_hash nonce r /\ a = fresh_hash nonce b /\ clean nonce b /\ strip b = strip r).
    { intros hh [->|[-> K]]; do 2 eexists; split; try reflexivity; repeat split; auto; congruence. }
    destruct (A _ Hl) as (a & la & -> & Ea1 & Ea2 & Ka & Sa).
    destruct (B _ Hr) as (b & rb & -> & Eb1 & Eb2 & Kb & Sb).
    unfold Digest. simpl. rewrite app_nil_r. repeat split; try congruence; auto.
  Qed.

  Lemma insert_cached nonce d bits rem : forall depth n n',
    cached nonce n -> insert d bits rem depth n = Ok n' -> cached nonce n'.
  Proof.
    induction rem as [|b rem IH]; intros depth n n' K H.
    - destruct n as [lvl i|lvl old|lvl lh rh l r]; cbn [insert] in *; try discriminate.
      destruct (beq (l_index old) (l_index d)).
      + injection H as <-. simpl. auto.
      + destruct (GetNthBit (l_index old) depth) as [[]|]; cbn [bind newInteriorNode] in H; discriminate.
    - assert (DOWN : forall lvl lh rh l r n', cached nonce (Interior lvl lh rh l r) ->
        (if b then
          if isEmpty r then Ok (Interior lvl lh None l (Leaf (depth + 1) d))
          else do r' <- insert d bits rem (depth + 1) r; Ok (Interior lvl lh None l r')
        else
          if isEmpty l then Ok (Interior lvl None rh (Leaf (depth + 1) d) r)
          else do l' <- insert d bits rem (depth + 1) l; Ok (Interior lvl None rh l' r)) = Ok n' ->
        cached nonce n').
      { clear H n' K. intros lvl lh rh l r n' (Kl & Kr & Cl & Cr) H.
        destruct b.
        - destruct (isEmpty r).
          + injection H as <-. simpl. tauto.
          + destruct (insert d bits rem (depth + 1) r) as [r'|] eqn:E; cbn [bind] in H; try discriminate.
            injection H as <-. simpl. pose proof (IH _ _ _ Cr E). intuition.
        - destruct (isEmpty l).
          + injection H as <-. simpl. intuition.
          + destruct (insert d bits rem (depth + 1) l) as [r'|] eqn:E; cbn [bind] in H; try discriminate.
            injection H as <-. simpl. pose proof (IH _ _ _ Cl E). intuition. }
      destruct n as [lvl i|lvl old|lvl lh rh l r]; cbn [insert] in *; try discriminate.
      + destruct (beq (l_index old) (l_index d)).
        * injection H as <-. simpl. auto.
        * destruct (GetNthBit (l_index old) depth) as [c|]; cbn [bind newInteriorNode] in H; try discriminate.
          destruct c.
          -- refine (DOWN depth None None (Empty (depth + 1) (ToBytes (firstn depth bits ++ [false])))
                       (Leaf (depth + 1) old) _ _ H). simpl. intuition.
          -- refine (DOWN depth None None (Leaf (depth + 1) old)
                       (Empty (depth + 1) (ToBytes (firstn depth bits ++ [true]))) _ _ H). simpl. intuition.
      + eapply DOWN; eauto.
  Qed.

  Lemma hash_clean nonce n : clean nonce n -> hash_node nonce n = (fresh_hash nonce n, n).
  Proof.
    induction n as [| |lvl lh rh l IHl r IHr]; simpl; auto.
    intros (-> & -> & Cl & Cr). unfold Digest. simpl. rewrite app_nil_r. reflexivity.
  Qed.

  Lemma clone_clean nonce n : clean nonce n -> clone_node n = n.
  Proof.
    induction n as [| |lvl lh rh l IHl r IHr]; simpl; auto.
    intros (-> & -> & Cl & Cr). rewrite IHl, IHr by auto. reflexivity.
  Qed.

  (** ** Lookup *)

  Hypothesis Hlen : forall x, length (shake x) = 32.

  Lemma fresh_length nonce n : length (fresh_hash nonce n) = 32.
  Proof. destruct n; simpl; apply Hlen. Qed.

  Lemma copy32_id h : length h = 32 -> copy32 (Some h) = h.
  Proof.
    intro L. unfold copy32. rewrite firstn_app, L, Nat.sub_diag. simpl firstn at 2.
    rewrite app_nil_r. rewrite <- L. apply firstn_all.
  Qed.

  Lemma copy32_length h : length (copy32 h) = 32.
  Proof.
    unfold copy32. rewrite firstn_length, app_length, repeat_length. lia.
  Qed.

  (** Descent without hashing: shape of the result. *)
  Lemma get_loop_spec nb bits n : forall pre pruned,
    length bits = 8 * nb -> firstn (length pre) bits = pre -> wf nb pre n ->
    exists q ps leaf,
      get_loop bits (length pre) n pruned = Ok (pruned ++ ps, leaf) /\
      length ps = length q /\
      Forall (fun h => length h = 32) ps /\
      firstn (length (pre ++ q)) bits = pre ++ q /\
      wf nb (pre ++ q) leaf /\
      (forall lvl lh rh l r, leaf <> Interior lvl lh rh l r) /\
      (forall d, In d (leaves leaf) -> In d (leaves n)) /\
      (forall d, In d (leaves n) -> ToBits (l_index d) = bits -> In d (leaves leaf)) /\
      (forall nonce, clean nonce n ->
         forall bits' more, firstn (length (pre ++ q)) bits' = pre ++ q ->
         length pruned = length pre ->
         aph_loop bits' (pruned ++ ps ++ more) (length (pre ++ q)) (fresh_hash nonce leaf) =
         aph_loop bits' (pruned ++ ps ++ more) (length pre) (fresh_hash nonce n)).
  Proof.
    induction n as [lvl i|lvl d|lvl lh rh l IHl r IHr]; intros pre pruned Lb Pb W.
    - exists [], [], (Empty lvl i). simpl get_loop. rewrite !app_nil_r.
      repeat split; auto; try congruence; try apply W.
    - exists [], [], (Leaf lvl d). simpl get_loop. rewrite !app_nil_r.
      repeat split; auto; try congruence; try apply W.
    - simpl in W. destruct W as (El & LP & Wl & Wr). cbn [get_loop].
      destruct (nth_error bits (length pre)) as [b|] eqn:Nb.
      2:{ apply nth_error_None in Nb. lia. }
      unfold index at 1. rewrite Nb. cbn [bind].
      assert (LL : length (pre ++ [b]) = length pre + 1) by (rewrite app_length; reflexivity).
      assert (Pb' : firstn (length (pre ++ [b])) bits = pre ++ [b]) by (apply prefix_snoc; auto).
      assert (G : forall (ch : node) hs,
         (exists q ps leaf,
           get_loop bits (length (pre ++ [b])) ch (pruned ++ [copy32 hs]) = Ok ((pruned ++ [copy32 hs]) ++ ps, leaf) /\
           length ps = length q /\ Forall (fun h => length h = 32) ps /\
           firstn (length ((pre ++ [b]) ++ q)) bits = (pre ++ [b]) ++ q /\
           wf nb ((pre ++ [b]) ++ q) leaf /\
           (forall lvl lh rh l r, leaf <> Interior lvl lh rh l r) /\
           (forall d, In d (leaves leaf) -> In d (leaves ch)) /\
           (forall d, In d (leaves ch) -> ToBits (l_index d) = bits -> In d (leaves leaf)) /\
           (forall nonce, clean nonce ch ->
             forall bits' more, firstn (length ((pre ++ [b]) ++ q)) bits' = (pre ++ [b]) ++ q ->
             length (pruned ++ [copy32 hs]) = length (pre ++ [b]) ->
             aph_loop bits' ((pruned ++ [copy32 hs]) ++ ps ++ more) (length ((pre ++ [b]) ++ q)) (fresh_hash nonce leaf) =
             aph_loop bits' ((pruned ++ [copy32 hs]) ++ ps ++ more) (length (pre ++ [b])) (fresh_hash nonce ch))) ->
         (ch = (if b then r else l) /\ hs = (if b then lh else rh)) ->
         exists q ps leaf,
           get_loop bits (length pre + 1) ch (pruned ++ [copy32 hs]) = Ok (pruned ++ ps, leaf) /\
           length ps = length q /\ Forall (fun h => length h = 32) ps /\
           firstn (length (pre ++ q)) bits = pre ++ q /\
           wf nb (pre ++ q) leaf /\
           (forall lvl lh rh l r, leaf <> Interior lvl lh rh l r) /\
           (forall d, In d (leaves leaf) -> In d (leaves (Interior lvl lh rh l r))) /\
           (forall d, In d (leaves (Interior lvl lh rh l r)) -> ToBits (l_index d) = bits -> In d (leaves leaf)) /\
           (forall nonce, clean nonce (Interior lvl lh rh l r) ->
             forall bits' more, firstn (length (pre ++ q)) bits' = pre ++ q ->
             length pruned = length pre ->
             aph_loop bits' (pruned ++ ps ++ more) (length (pre ++ q)) (fresh_hash nonce leaf) =
             aph_loop bits' (pruned ++ ps ++ more) (length pre) (fresh_hash nonce (Interior lvl lh rh l r)))).
      { intros ch hs (q & ps & leaf & E & Lps & Fps & Pq & Wq & NI & In1 & In2 & HH) (Ech & Ehs).
        exists (b :: q), (copy32 hs :: ps), leaf.
        assert (Q : pre ++ b :: q = (pre ++ [b]) ++ q) by (rewrite <- app_assoc; reflexivity).
        rewrite Q. rewrite LL in E. rewrite E. rewrite <- app_assoc. simpl app at 2.
        split; [reflexivity|]. split; [simpl; congruence|].
        split; [constructor; [apply copy32_length|auto]|].
        split; auto. split; auto. split; auto.
        split; [|split].
        - intros d Hd. apply In1 in Hd. simpl. rewrite in_app_iff. subst ch. destruct b; auto.
        - intros d Hd Eb. apply In2; auto. simpl in Hd. rewrite in_app_iff in Hd. subst ch.
          destruct Hd as [Hd|Hd].
          + pose proof (wf_leaves _ _ _ _ Wl Hd) as [_ F]. rewrite Eb in F.
            apply prefix_nth in F. destruct F as [F _]. destruct b; [congruence|auto].
          + pose proof (wf_leaves _ _ _ _ Wr Hd) as [_ F]. rewrite Eb in F.
            apply prefix_nth in F. destruct F as [F _]. destruct b; [auto|congruence].
        - intros nonce K bits' more PB LPr.
          simpl in K. destruct K as (Kl & Kr & Cl & Cr).
          assert (Kc : clean nonce ch) by (subst ch; destruct b; auto).
          specialize (HH nonce Kc bits' more PB).
          replace (pruned ++ (copy32 hs :: ps) ++ more) with ((pruned ++ [copy32 hs]) ++ ps ++ more)
            by (rewrite <- !app_assoc; reflexivity).
          rewrite HH by (rewrite !app_length; simpl; lia).
          rewrite LL, Nat.add_1_r. cbn [aph_loop].
          assert (PB' : firstn (length (pre ++ [b])) bits' = pre ++ [b]).
          { apply (f_equal (firstn (length (pre ++ [b])))) in PB. rewrite firstn_firstn in PB.
            rewrite Nat.min_l in PB by (rewrite (app_length _ q); lia).
            rewrite PB, firstn_app, firstn_all, Nat.sub_diag. simpl. apply app_nil_r. }
          apply prefix_nth in PB'. destruct PB' as [PB' _].
          unfold index at 1. rewrite PB'. cbn [bind].
          unfold index at 1. rewrite <- LPr, <- app_assoc.
          rewrite nth_error_app2, Nat.sub_diag by lia. cbn [nth_error app bind].
          rewrite LPr. f_equal. unfold Digest.
          destruct b; subst; rewrite copy32_id by apply fresh_length; simpl; rewrite app_nil_r; reflexivity. }
      destruct b.
      + apply (G r lh); [apply IHr|]; auto.
      + apply (G l rh); [apply IHl|]; auto.
  Qed.
End Hash.
