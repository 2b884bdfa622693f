(** C07, second half: trees, clones and snapshots in one heap do not interfere.

    [hrun] runs a program on the pointer-level model of [TreeHeap.v] (nodes are
    mutated in place, [FClone k] copies tree [k]); [h_get] and [ht_hash] are what
    its user observes.  [vrun] is the same program on independent values. *)
From Coq Require Import List NArith Lia Bool Arith.
From Verif Require Import Base Utils Crypto Tree TreeSpec TreeFacts TreeHeap HeapFacts.
Import ListNotations.

(** Every program on pointers behaves as on values, for every tree object and
    every index: in particular the value-level model of [Tree.v] is adequate. *)
Theorem C07_pointers_refine_values : forall (C : Crypto) ops ms,
  vrun [] ops = Ok ms ->
  exists h ts, hrun ([], []) ops = Ok (h, ts) /\ length ts = length ms /\
    forall k m, nth_error ms k = Some m ->
    exists t, nth_error ts k = Some t /\ ht_hash t = t_hash m /\ forall i, h_get h t i = Get m i.
Proof.
  intros C ops ms E. destruct (run_refines ops _ _ _ forest_empty E) as ((h & ts) & EH & FR).
  exists h, ts. split; auto. split; [apply FR|]. intros k m Em. exact (forest_obs _ _ _ _ FR Em).
Qed.
Print Assumptions C07_pointers_refine_values.

(** The operation is applied to tree [k] (creating or cloning changes no tree). *)
Definition changes (k : nat) (op : forest_op) : bool :=
  match op with FSet j _ _ _ _ | FRehash j => Nat.eqb j k | _ => false end.

(** Isolation: after any program, further operations that are not applied to
    tree [k] (among them Sets on trees it was cloned from and on its clones) leave
    its root hash and every [Get] unchanged. *)
Theorem C07_isolation : forall (C : Crypto) ops ops' ms ms' h ts k t,
  vrun [] ops = Ok ms -> vrun ms ops' = Ok ms' ->
  hrun ([], []) ops = Ok (h, ts) -> nth_error ts k = Some t ->
  forallb (fun op => negb (changes k op)) ops' = true ->
  exists h' ts' t', hrun (h, ts) ops' = Ok (h', ts') /\ nth_error ts' k = Some t' /\
    ht_hash t' = ht_hash t /\ forall i, h_get h' t' i = h_get h t i.
Proof.
  intros C ops ops' ms ms' h ts k t E E' EH Et NC.
  destruct (run_refines ops _ _ _ forest_empty E) as (s1 & EH1 & FR). rewrite EH in EH1. injection EH1 as <-.
  destruct (run_refines ops' _ _ _ FR E') as ((h' & ts') & EH' & FR').
  assert (exists m, nth_error ms k = Some m) as (m & Em).
  { destruct (nth_error ms k) eqn:X; eauto. apply nth_error_None in X. destruct FR as (L & _). cbn [snd] in L. apply nth_lt in Et. lia. }
  assert (Em' : nth_error ms' k = Some m).
  { clear - E' NC Em. revert ms E' Em. induction ops' as [|op ops' IH]; intros ms E' Em; cbn [vrun forallb] in *; [congruence|].
    apply andb_prop in NC. destruct NC as (N1 & N2). destruct (vstep ms op) as [ms1|] eqn:E1; [|discriminate E']. cbn [bind] in E'.
    apply (IH N2 ms1 E'). clear IH E'. pose proof (nth_lt _ _ _ Em) as LK.
    assert (SET : forall j x, Nat.eqb j k = false -> j < length ms -> nth_error (set_nth ms j x) k = Some m).
    { intros j x X L. rewrite nth_set by exact L. rewrite Nat.eqb_sym, X. exact Em. }
    destruct op as [r|j r idx key value|j|j]; cbn [vstep changes negb] in *; unfold index in *.
    - injection E1 as <-. destruct (NewMerkleTree r); auto. rewrite nth_error_app1 by exact LK. exact Em.
    - destruct (nth_error ms j) as [mj|] eqn:Ej; [|discriminate E1]. cbn [bind] in E1.
      destruct (Set_ mj r idx key value) as [[mj'|]|]; cbn [bind] in E1; try discriminate E1; injection E1 as <-; auto.
      apply SET; [apply negb_true_iff; exact N1|eapply nth_lt; eauto].
    - destruct (nth_error ms j) as [mj|] eqn:Ej; [|discriminate E1]. cbn [bind] in E1. injection E1 as <-.
      apply SET; [apply negb_true_iff; exact N1|eapply nth_lt; eauto].
    - destruct (nth_error ms j) as [mj|] eqn:Ej; [|discriminate E1]. cbn [bind] in E1. injection E1 as <-.
      rewrite nth_error_app1 by exact LK. exact Em. }
  destruct (forest_obs _ _ _ _ FR Em) as (t0 & T0 & H0 & G0). cbn [snd fst] in *. rewrite Et in T0. injection T0 as <-.
  destruct (forest_obs _ _ _ _ FR' Em') as (t1 & T1 & H1 & G1). cbn [snd fst] in *.
  exists h', ts', t1. split; auto. split; auto. split; [congruence|]. intro i. rewrite G1, G0. reflexivity.
Qed.
Print Assumptions C07_isolation.

(** Non-vacuity: a program with an insertion that pushes a leaf down, a clone
    and later changes to both trees runs. *)
Definition heap_ex : list forest_op :=
  [FNew (Some [x07]); FSet 0 (Some [x01]) [x00; x01] [x61] [x31]; FSet 0 (Some [x02]) [x00; x00] [x62] [x32]; FRehash 0;
   FClone 0].
Definition heap_ex' : list forest_op := [FSet 0 (Some [x03]) [x00; x01] [x61] [x33]; FSet 0 (Some [x04]) [xff; x00] [x63] [x34]; FRehash 0].
Example heap_nonvacuous :
  match @vrun ToyCrypto [] heap_ex with
  | Ok ms => match @vrun ToyCrypto ms heap_ex' with
    | Ok ms' => length ms = 2 /\ forallb (fun op => negb (changes 1 op)) heap_ex' = true /\
        match nth_error ms 1, nth_error ms' 0 with Some a, Some b => beq (t_hash a) (t_hash b) = false | _, _ => False end
    | Panic => False end
  | Panic => False end.
Proof. vm_compute. auto. Qed.
