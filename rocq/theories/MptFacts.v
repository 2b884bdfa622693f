(** The tree of the code computes the Merkle prefix tree of [MptSpec.v]. *)
From Coq Require Import List NArith Lia Bool Arith Permutation.
From Verif Require Import Base Utils Crypto Tree TreeSpec TreeFacts CloneFacts TreeHist TreeMain MptSpec.
Import ListNotations.

Lemma byte_bits_spec b : map (N.testbit (Byte.to_N b)) [7; 6; 5; 4; 3; 2; 1; 0]%N = byte_bits b.
Proof. destruct b; vm_compute; reflexivity. Qed.
Lemma bits_of_ToBits i : bits_of i = ToBits i.
Proof.
  induction i as [|b i IH]; [reflexivity|]. unfold bits_of in *. cbn [flat_map].
  rewrite ToBits_cons, IH, byte_bits_spec. reflexivity.
Qed.

Lemma byte_bits_value a b c d e f g h : byte_bits (b8 (byte_value [a; b; c; d; e; f; g; h])) = [a; b; c; d; e; f; g; h].
Proof. destruct a, b, c, d, e, f, g, h; vm_compute; reflexivity. Qed.
Lemma byte_bits_value8 l : length l = 8 -> byte_bits (b8 (byte_value l)) = l.
Proof.
  intro H. do 8 (destruct l as [|? l]; [discriminate H|]). destruct l; [|discriminate H]. apply byte_bits_value.
Qed.
Lemma firstn_pad8 (bits : list bool) : 8 <= length bits -> firstn 8 (bits ++ repeat false 8) = firstn 8 bits.
Proof. intro H. rewrite firstn_app. replace (8 - length bits) with 0 by lia. cbn [firstn]. apply app_nil_r. Qed.
Lemma pack_n_bits n : forall bits, 8 * n < length bits + 8 -> length bits <= 8 * n ->
  ToBits (pack_n n bits) = bits ++ repeat false (8 * n - length bits).
Proof.
  induction n as [|n IH]; intros bits H1 H2.
  - destruct bits; [reflexivity|cbn [length] in *; lia].
  - cbn [pack_n]. rewrite ToBits_cons. rewrite byte_bits_value8.
    2:{ rewrite firstn_length, app_length, repeat_length. lia. }
    destruct (le_lt_dec 8 (length bits)) as [G|G].
    + rewrite firstn_pad8 by exact G. rewrite IH by (rewrite skipn_length; lia).
      rewrite skipn_length, app_assoc, firstn_skipn. f_equal. f_equal. lia.
    + rewrite skipn_all2 by lia. assert (n = 0) by lia. subst n. cbn [pack_n]. rewrite ToBits_nil, app_nil_r.
      rewrite firstn_app, firstn_all2 by lia. f_equal.
      assert (E : forall a b, a <= b -> firstn a (repeat false b) = repeat false a).
      { induction a as [|a IHa]; intros [|b] L; cbn [firstn repeat]; try reflexivity; [lia|]. rewrite IHa by lia. reflexivity. }
      rewrite E by lia. f_equal.
Qed.
Lemma pack_ToBytes bits : pack bits = ToBytes bits.
Proof.
  apply ToBits_inj. rewrite ToBits_ToBytes. unfold pack.
  assert (D : 8 * ((length bits + 7) / 8) < length bits + 8 /\ length bits <= 8 * ((length bits + 7) / 8)).
  { pose proof (Nat.div_mod (length bits + 7) 8 ltac:(lia)). pose proof (Nat.mod_upper_bound (length bits + 7) 8 ltac:(lia)). lia. }
  rewrite pack_n_bits by lia. f_equal.
Qed.
Lemma le32_is n : le32 n = UInt32ToBytes (N.of_nat n).
Proof.
  unfold le32, UInt32ToBytes. cbn [le_bytes]. rewrite !N.div_div by discriminate. reflexivity.
Qed.

Lemma Permutation_filter {A} (f : A -> bool) l l' : Permutation l l' -> Permutation (filter f l) (filter f l').
Proof.
  induction 1 as [|x l l' P IH|x y l|l1 l2 l3 P1 IH1 P2 IH2]; cbn [filter].
  - constructor.
  - destruct (f x); [apply perm_skip|]; exact IH.
  - destruct (f x), (f y); try apply Permutation_refl. apply perm_swap.
  - eapply Permutation_trans; eassumption.
Qed.
Lemma filter_all {A} (f : A -> bool) l : (forall x, In x l -> f x = true) -> filter f l = l.
Proof.
  induction l as [|x l IH]; intro H; [reflexivity|]. cbn [filter]. rewrite (H x) by (left; reflexivity).
  rewrite IH; [reflexivity|]. intros y I. apply H. right. exact I.
Qed.
Lemma filter_none {A} (f : A -> bool) l : (forall x, In x l -> f x = false) -> filter f l = [].
Proof.
  induction l as [|x l IH]; intro H; [reflexivity|]. cbn [filter]. rewrite (H x) by (left; reflexivity).
  apply IH. intros y I. apply H. right. exact I.
Qed.
Lemma filter_filter {A} (f g : A -> bool) l : (forall x, f x = true -> g x = true) -> filter f (filter g l) = filter f l.
Proof.
  intro H. induction l as [|x l IH]; [reflexivity|]. cbn [filter]. destruct (g x) eqn:G; cbn [filter]; rewrite IH.
  - reflexivity.
  - destruct (f x) eqn:F; [rewrite (H x F) in G; discriminate G|reflexivity].
Qed.

Lemma starts_iff pre e : starts pre e = true <-> firstn (length pre) (ToBits (fst e)) = pre.
Proof.
  unfold starts. rewrite bits_of_ToBits. destruct (list_eq_dec _ _ _) as [E|E]; split; intro X; [exact E|reflexivity|discriminate X|contradiction].
Qed.

Definition ent (d : leafdata) : bytes * bytes := (l_index d, c_value (l_com d)).

Section Facts.
  Context {C : Crypto} (OK : CryptoOk C).
  Variables (nb : nat) (nonce : bytes) (L : list (bytes * bytes)).

  Lemma under_child pre b n : wf nb (pre ++ [b]) n ->
    forall n', wf nb (pre ++ [negb b]) n' ->
    (Permutation (under L pre) (map ent (leaves n ++ leaves n')) \/ Permutation (under L pre) (map ent (leaves n' ++ leaves n))) ->
    Permutation (under L (pre ++ [b])) (map ent (leaves n)).
  Proof.
    intros W n' W' P.
    assert (E : under L (pre ++ [b]) = filter (starts (pre ++ [b])) (under L pre)).
    { unfold under. rewrite filter_filter; [reflexivity|]. intros x H. apply starts_iff in H. apply starts_iff.
      apply (prefix_nth pre _ b) in H. tauto. }
    rewrite E.
    assert (A : filter (starts (pre ++ [b])) (map ent (leaves n)) = map ent (leaves n)).
    { apply filter_all. intros x I. apply in_map_iff in I as (d & <- & I). apply starts_iff. exact (proj2 (wf_leaves _ _ _ _ W I)). }
    assert (B : filter (starts (pre ++ [b])) (map ent (leaves n')) = []).
    { apply filter_none. intros x I. apply in_map_iff in I as (d & <- & I).
      destruct (starts (pre ++ [b]) (ent d)) eqn:S; [exfalso|reflexivity]. apply starts_iff in S. cbn [ent fst] in S.
      pose proof (proj2 (wf_leaves _ _ _ _ W' I)) as S'. apply prefix_nth in S, S'. destruct S as [S _], S' as [S' _].
      rewrite S in S'. injection S' as S'. destruct b; discriminate S'. }
    destruct P as [P|P]; apply (Permutation_filter (starts (pre ++ [b]))) in P; rewrite map_app, filter_app, A, B in P.
    - rewrite app_nil_r in P. exact P.
    - exact P.
  Qed.

  Lemma hash_below_fresh n : forall pre h, wf nb pre n -> dense n -> 8 * nb <= length pre + h ->
    Permutation (under L pre) (map ent (leaves n)) -> hash_below nonce L h pre = fresh_hash nonce n.
  Proof.
    induction n as [lvl i|lvl d|lvl lh rh l IHl r IHr]; intros pre h W D H P.
    - cbn [leaves map] in P. apply Permutation_sym, Permutation_nil in P. destruct W as (-> & -> & _).
      assert (E : hash_below nonce L h pre = empty_hash nonce pre) by (destruct h; cbn [hash_below]; rewrite P; reflexivity).
      rewrite E. unfold empty_hash, fresh_hash, empty_pre. cbn [concat]. rewrite app_nil_r, pack_ToBytes, le32_is. reflexivity.
    - cbn [leaves map] in P. apply Permutation_sym, Permutation_length_1_inv in P. destruct W as (-> & _).
      assert (E : hash_below nonce L h pre = leaf_hash nonce pre (ent d)) by (destruct h; cbn [hash_below]; rewrite P; reflexivity).
      rewrite E. unfold leaf_hash, fresh_hash, leaf_pre. cbn [concat ent fst snd]. rewrite app_nil_r, le32_is. reflexivity.
    - cbn [wf] in W. destruct W as (-> & LP & Wl & Wr). cbn [dense] in D. destruct D as (D2 & Dl & Dr). cbn [leaves] in P.
      pose proof (Permutation_length P) as PL. rewrite map_length in PL.
      destruct h as [|h]; [lia|]. cbn [hash_below fresh_hash].
      destruct (under L pre) as [|x [|y u]] eqn:U; [cbn [length] in PL; lia|cbn [length] in PL; lia|]. rewrite <- U in P.
      rewrite IHl, IHr; [reflexivity|exact Wr|exact Dr|rewrite app_length; cbn [length]; lia| |exact Wl|exact Dl|rewrite app_length; cbn [length]; lia|].
      + apply (under_child pre true r Wr l Wl). right. exact P.
      + apply (under_child pre false l Wl r Wr). left. exact P.
  Qed.
  Lemma hash_at_fresh n pre : wf nb pre n -> dense n ->
    Permutation (under L pre) (map ent (leaves n)) -> hash_at nb nonce L pre = fresh_hash nonce n.
  Proof. intros W D P. apply hash_below_fresh; auto. lia. Qed.
  Lemma under_nil : under L [] = L.
  Proof. unfold under. apply filter_all. intros x _. apply starts_iff. reflexivity. Qed.

  Lemma mpt_root_fresh n : wf nb [] n -> root_dense n -> Permutation L (map ent (leaves n)) ->
    mpt_root nb nonce L = fresh_hash nonce n.
  Proof.
    intros W D P. destruct n as [|?|lvl lh rh l r]; cbn [root_dense] in D; try contradiction. destruct D as (Dl & Dr).
    cbn [wf] in W. destruct W as (_ & _ & Wl & Wr). rewrite <- under_nil in P. cbn [leaves] in P.
    unfold mpt_root. cbn [fresh_hash].
    rewrite (hash_at_fresh l [false] Wl Dl), (hash_at_fresh r [true] Wr Dr); [reflexivity| |].
    - apply (under_child [] true r Wr l Wl). right. exact P.
    - apply (under_child [] false l Wl r Wr). left. exact P.
  Qed.

  (** The descent of [Get] in a tree whose hashes are all there. *)
  Lemma get_loop_mpt bits n : forall pre acc, length bits = 8 * nb -> firstn (length pre) bits = pre -> 
    wf nb pre n -> (pre = [] /\ root_dense n \/ dense n) -> clean nonce n -> Permutation (under L pre) (map ent (leaves n)) ->
    exists q ps leaf, get_loop bits (length pre) n acc = Ok (acc ++ ps, leaf) /\
      firstn (length (pre ++ q)) bits = pre ++ q /\ length ps = length q /\
      (forall lvl lh rh l r, leaf <> Interior lvl lh rh l r) /\
      wf nb (pre ++ q) leaf /\ Permutation (under L (pre ++ q)) (map ent (leaves leaf)) /\
      (forall j, j < length q -> nth_error ps j = Some (hash_at nb nonce L (firstn (length pre + j) bits ++ [negb (nth (length pre + j) bits false)]))) /\
      (forall d, length pre <= d -> d < length (pre ++ q) -> d = 0 \/ 2 <= length (under L (firstn d bits))).
  Proof.
    induction n as [lvl i|lvl d|lvl lh rh l IHl r IHr]; intros pre acc LB FB W D CL P.
    - exists [], [], (Empty lvl i). cbn [get_loop]. rewrite !app_nil_r. repeat (split; [auto; try discriminate|]).
      + intros j H. cbn [length] in H. lia.
      + intros e H1 H2. lia.
    - exists [], [], (Leaf lvl d). cbn [get_loop]. rewrite !app_nil_r. repeat (split; [auto; try discriminate|]).
      + intros j H. cbn [length] in H. lia.
      + intros e H1 H2. lia.
    - cbn [wf] in W. destruct W as (El & LP & Wl & Wr). cbn [clean] in CL. cbn [leaves] in P.
      assert (DD : dense l /\ dense r) by (cbn [dense root_dense] in D; tauto).
      assert (D2 : length pre = 0 \/ 2 <= length (under L pre)).
      { destruct D as [(-> & _)|D]; [left; reflexivity|right]. cbn [dense] in D. rewrite (Permutation_length P), map_length. tauto. }
      destruct (nth_error bits (length pre)) as [b|] eqn:Nb.
      2:{ apply nth_error_None in Nb. lia. }
      assert (LL : length (pre ++ [b]) = length pre + 1) by (rewrite app_length; reflexivity).
      assert (FB' : firstn (length (pre ++ [b])) bits = pre ++ [b]) by (apply prefix_snoc; auto).
      cbn [get_loop]. unfold index at 1. rewrite Nb. cbn [bind].
      destruct CL as (Hl & Hr & CLl & CLr).
      assert (G : forall ch o (hs : option bytes), wf nb (pre ++ [b]) ch -> wf nb (pre ++ [negb b]) o -> dense ch -> dense o -> clean nonce ch ->
         Permutation (under L (pre ++ [b])) (map ent (leaves ch)) -> Permutation (under L (pre ++ [negb b])) (map ent (leaves o)) ->
         hs = Some (fresh_hash nonce o) ->
         (exists q ps leaf, get_loop bits (length (pre ++ [b])) ch (acc ++ [copy32 hs]) = Ok ((acc ++ [copy32 hs]) ++ ps, leaf) /\
           firstn (length ((pre ++ [b]) ++ q)) bits = (pre ++ [b]) ++ q /\ length ps = length q /\
           (forall lvl lh rh l r, leaf <> Interior lvl lh rh l r) /\
           wf nb ((pre ++ [b]) ++ q) leaf /\ Permutation (under L ((pre ++ [b]) ++ q)) (map ent (leaves leaf)) /\
           (forall j, j < length q -> nth_error ps j = Some (hash_at nb nonce L (firstn (length (pre ++ [b]) + j) bits ++ [negb (nth (length (pre ++ [b]) + j) bits false)]))) /\
           (forall d, length (pre ++ [b]) <= d -> d < length ((pre ++ [b]) ++ q) -> d = 0 \/ 2 <= length (under L (firstn d bits)))) ->
         exists q ps leaf, get_loop bits (length pre + 1) ch (acc ++ [copy32 hs]) = Ok (acc ++ ps, leaf) /\
           firstn (length (pre ++ q)) bits = pre ++ q /\ length ps = length q /\
           (forall lvl lh rh l r, leaf <> Interior lvl lh rh l r) /\
           wf nb (pre ++ q) leaf /\ Permutation (under L (pre ++ q)) (map ent (leaves leaf)) /\
           (forall j, j < length q -> nth_error ps j = Some (hash_at nb nonce L (firstn (length pre + j) bits ++ [negb (nth (length pre + j) bits false)]))) /\
           (forall d, length pre <= d -> d < length (pre ++ q) -> d = 0 \/ 2 <= length (under L (firstn d bits)))).
      { intros ch o hs Wc Wo Dc Do Cc Pc Po -> (q & ps & leaf & E1 & E2 & E3 & E4 & E5 & E6 & E7 & E8).
        exists (b :: q), (copy32 (Some (fresh_hash nonce o)) :: ps), leaf.
        rewrite LL in E1. rewrite E1. rewrite <- !app_assoc in *. cbn [app] in *.
        split; [reflexivity|]. split; [exact E2|]. split; [cbn [length]; congruence|]. split; [exact E4|]. split; [exact E5|]. split; [exact E6|].
        split.
        - intros [|j] Hj; cbn [nth_error].
          + rewrite copy32_id by (apply fresh_length, OK). rewrite Nat.add_0_r, FB.
            assert (NB : nth (length pre) bits false = b) by (apply nth_error_nth; exact Nb).
            rewrite NB. f_equal. symmetry. apply hash_at_fresh; assumption.
          + cbn [length] in Hj. rewrite E7 by lia. rewrite LL. replace (length pre + 1 + j) with (length pre + S j) by lia. reflexivity.
        - intros e H1 H2. destruct (Nat.eq_dec e (length pre)) as [->|NE]; [rewrite FB; exact D2|].
          apply E8; [rewrite LL; lia|exact H2]. }
      pose proof (under_child pre false l Wl r Wr (or_introl P)) as Pl.
      pose proof (under_child pre true r Wr l Wl (or_intror P)) as Pr.
      destruct b.
      + apply (G r l lh); auto; try tauto. apply IHr; auto; tauto.
      + apply (G l r rh); auto; try tauto. apply IHl; auto; tauto.
  Qed.
End Facts.
