(** Trees that differ only in their cached hashes. *)
From Coq Require Import List NArith Lia Bool Arith.
From Verif Require Import Base Utils Crypto Tree TreeSpec TreeFacts.
Import ListNotations.

Definition agree {A} (R : A -> A -> Prop) (x y : result A) : Prop :=
  match x, y with Ok a, Ok b => R a b | Panic, Panic => True | _, _ => False end.
Definition same (a b : node) : Prop := strip a = strip b.

Lemma agree_bind {A B} (R : A -> A -> Prop) (Q : B -> B -> Prop) x y f g :
  agree R x y -> (forall a b, R a b -> agree Q (f a) (g b)) -> agree Q (bind x f) (bind y g).
Proof. destruct x, y; cbn; auto; tauto. Qed.
Lemma same_empty a b : same a b -> isEmpty a = isEmpty b.
Proof. intro H. rewrite <- (isEmpty_strip a), H. apply isEmpty_strip. Qed.

Lemma insert_same d bits rem : forall depth a b, same a b ->
  agree same (insert d bits rem depth a) (insert d bits rem depth b).
Proof.
  induction rem as [|x rem IH]; intros depth a b S; unfold same in S.
  - destruct a, b; cbn [strip] in S; try discriminate S; cbn [insert]; try exact I.
    injection S as <- <-. destruct (beq _ _); [reflexivity|]. destruct (GetNthBit _ _) as [[|]|]; cbn [bind newInteriorNode]; exact I.
  - destruct a as [la ia|la da|la lha rha l1 r1], b as [lb ib|lb db|lb lhb rhb l2 r2]; cbn [strip] in S; try discriminate S; cbn [insert]; try exact I.
    + injection S as <- <-. destruct (beq _ _); [reflexivity|]. destruct (GetNthBit _ _) as [[|]|]; cbn [bind newInteriorNode agree]; auto;
      destruct x; cbn [isEmpty agree]; try reflexivity;
      (eapply agree_bind; [apply IH; reflexivity|]; intros p q E; cbn [agree]; unfold same in *; cbn [strip]; congruence).
    + injection S as <- Sl Sr. destruct x.
      * rewrite (same_empty _ _ Sr). destruct (isEmpty r2); [cbn [agree]; unfold same; cbn [strip]; congruence|].
        eapply agree_bind; [apply IH; exact Sr|]. intros p q E. cbn [agree]; unfold same in *; cbn [strip]; congruence.
      * rewrite (same_empty _ _ Sl). destruct (isEmpty l2); [cbn [agree]; unfold same; cbn [strip]; congruence|].
        eapply agree_bind; [apply IH; exact Sl|]. intros p q E. cbn [agree]; unfold same in *; cbn [strip]; congruence.
Qed.

Lemma clone_same n : same (clone_node n) n.
Proof. unfold same. induction n; cbn [clone_node strip]; congruence. Qed.

Definition same_proof (a b : AuthPath) : Prop :=
  ap_leaf a = ap_leaf b /\ ap_lookup a = ap_lookup b /\ ap_nonce a = ap_nonce b /\ length (ap_pruned a) = length (ap_pruned b).

Lemma get_loop_same bits : forall a b, same a b -> forall depth p q, length p = length q ->
  agree (fun x y => length (fst x) = length (fst y) /\ same (snd x) (snd y)) (get_loop bits depth a p) (get_loop bits depth b q).
Proof.
  induction a as [la ia|la da|la lha rha l1 IHl r1 IHr]; intros b S depth p q L; destruct b as [lb ib|lb db|lb lhb rhb l2 r2]; unfold same in S; cbn [strip] in S; try discriminate S;
    cbn [get_loop]; try (split; [exact L|exact S]).
  injection S as <- Sl Sr. destruct (index bits depth) as [[|]|]; cbn [bind]; [| |exact I];
    [apply IHr|apply IHl]; auto; rewrite !app_length; cbn [length]; congruence.
Qed.

Section Runs.
  Context {C : Crypto}.
  Lemma hash_node_same nonce n : same (snd (hash_node nonce n)) n.
  Proof.
    induction n as [| |lvl lh rh l IHl r IHr]; try reflexivity. cbn [hash_node].
    destruct lh as [h1|], rh as [h2|]; try destruct (hash_node nonce l) as [hl l']; try destruct (hash_node nonce r) as [hr r'];
    cbn [snd] in *; unfold same in *; cbn [strip]; congruence.
  Qed.

  Definition same_tree (m1 m2 : MerkleTree) : Prop := t_nonce m1 = t_nonce m2 /\ same (t_root m1) (t_root m2).

  Lemma get_same m1 m2 i : same_tree m1 m2 -> agree same_proof (Get m1 i) (Get m2 i).
  Proof.
    intros (N & S). unfold Get. eapply agree_bind; [apply (get_loop_same _ _ _ S 0 [] []); reflexivity|].
    intros (p1 & n1) (p2 & n2) (L & S'). cbn [fst snd] in *.
    assert (E : proof_leaf i n1 = proof_leaf i n2).
    { unfold same in S'. destruct n1, n2; cbn [strip] in S'; try discriminate S'; [injection S' as -> ->|injection S' as -> ->|]; reflexivity. }
    rewrite E. destruct (proof_leaf i n2); cbn [bind agree]; auto. repeat split; auto.
  Qed.
  Lemma step_same m1 m2 op : same_tree m1 m2 -> agree same_tree (tree_step m1 op) (tree_step m2 op).
  Proof.
    intros (N & S). destruct op as [r idx key value|]; cbn [tree_step].
    - unfold Set_. destruct (NewCommit r [key; value]) as [c|]; [|cbn [bind]; split; auto].
      unfold insertNode. pose proof (insert_same (mkLeaf key value idx c) (ToBits idx) (ToBits idx) 0 _ _ S) as A.
      destruct (insert _ _ _ _ (t_root m1)), (insert _ _ _ _ (t_root m2)); cbn [agree bind] in *; auto. split; auto.
    - cbn [agree]. unfold recomputeHash. pose proof (hash_node_same (t_nonce m1) (t_root m1)) as H1. pose proof (hash_node_same (t_nonce m2) (t_root m2)) as H2.
      destruct (hash_node (t_nonce m1) (t_root m1)), (hash_node (t_nonce m2) (t_root m2)). cbn [snd] in *. split; [exact N|]. unfold same in *. cbn [t_root]. congruence.
  Qed.
  Lemma run_same ops : forall m1 m2, same_tree m1 m2 -> agree same_tree (run_tree m1 ops) (run_tree m2 ops).
  Proof.
    induction ops as [|op ops IH]; intros m1 m2 S; cbn [run_tree]; [exact S|].
    eapply agree_bind; [apply step_same; exact S|]. auto.
  Qed.
  Lemma clone_same_tree m : same_tree (Clone m) m.
  Proof. split; [reflexivity|]. apply clone_same. Qed.
End Runs.
