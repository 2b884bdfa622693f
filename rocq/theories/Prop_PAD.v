(** Properties of signed tree roots and of the persistent authenticated
    dictionary (C10, C15-C21).

    Reading guide.  [pad_built ser ad0 sk vk len r1 r2 ops p hist]: [p] is the
    PAD obtained from [NewPAD] (associated data [ad0], signing key [sk], VRF key
    [vk], snapshot capacity [len], entropy [r1], [r2]) by the calls [ops]
    ([PSet entropy key value], [PUpdate ad]); [hist] lists every STR it ever
    issued, oldest first.  [updates ops] counts the updates, [upto k ops] is the
    history up to the [k]-th one, [last_put ops key] what was last put under
    [key].  [vrf_spread n vk ks]: the private indices of the keys [ks] differ
    in the first [n] bits.  All in [PADSpec.v]. *)
From Coq Require Import List NArith Lia Bool Arith.
From Verif Require Import Base Utils Crypto Tree TreeSpec TreeFacts TreeHist PathFacts SoundFacts TreeMain STR PAD PADSpec PADFacts PADMain.
Import ListNotations.

(** ** C15 *)
Theorem C15_str_serialization_unambiguous : forall A (ser : A -> bytes) b1 a1 b2 a2,
  (forall x y, ser x = ser y -> x = y) ->
  str_sizes b1 -> str_sizes b2 ->
  STR_Serialize ser b1 a1 = STR_Serialize ser b2 a2 -> same_contents (b1, a1) (b2, a2).
Proof.
  intros A ser b1 a1 b2 a2 Inj (H1 & P1 & E1 & Q1) (H2 & P2 & E2 & Q2) H.
  unfold STR_Serialize, SerializeInternal in H. rewrite <- !app_assoc in H.
  apply app_inj_len in H; [|rewrite !ULongToBytes_length; reflexivity]. destruct H as (Ep & H).
  apply ULongToBytes_inj in Ep; auto. rewrite Ep in H. unfold same_contents. cbn [fst snd].
  destruct (N.ltb_spec 0 (s_epoch b2)) as [L|L].
  - rewrite <- ?app_assoc in H. apply app_inj_len in H; [|rewrite !ULongToBytes_length; reflexivity]. destruct H as (Pe & H).
    apply ULongToBytes_inj in Pe; auto.
    apply app_inj_len in H; [|congruence]. destruct H as (Hh & H).
    apply app_inj_len in H; [|congruence]. destruct H as (Hp & H). auto 10.
  - cbn [app] in H. apply app_inj_len in H; [|congruence]. destruct H as (Hh & H).
    apply app_inj_len in H; [|congruence]. destruct H as (Hp & H). repeat split; auto. lia.
Qed.
Print Assumptions C15_str_serialization_unambiguous.

(** Policies with fields of the same sizes serialize injectively. *)
Definition pol_same_format (p1 p2 : Policies) : Prop :=
  length (pol_version p1) = length (pol_version p2) /\ length (pol_hashid p1) = length (pol_hashid p2) /\
  length (pol_vrf p1) = length (pol_vrf p2) /\ (pol_deadline p1 < 2 ^ 64)%N /\ (pol_deadline p2 < 2 ^ 64)%N.
Theorem C15_policies_unambiguous : forall p1 p2, pol_same_format p1 p2 ->
  Policies_Serialize p1 = Policies_Serialize p2 -> p1 = p2.
Proof.
  intros [v1 h1 k1 d1] [v2 h2 k2 d2] (Lv & Lh & Lk & D1 & D2) H. unfold Policies_Serialize in H. simpl in *.
  apply app_inj_len in H; auto. destruct H as (-> & H).
  apply app_inj_len in H; auto. destruct H as (-> & H).
  apply app_inj_len in H; auto. destruct H as (-> & H).
  apply ULongToBytes_inj in H; auto. subst. reflexivity.
Qed.
Print Assumptions C15_policies_unambiguous.
(** Together: what a directory STR signature covers. *)
Theorem C15_dirstr_unambiguous : forall b1 p1 b2 p2 bs,
  str_sizes b1 -> str_sizes b2 -> pol_same_format p1 p2 ->
  DirSTR_Serialize (mkDir (Some b1) (Some p1)) = Ok bs ->
  DirSTR_Serialize (mkDir (Some b2) (Some p2)) = Ok bs ->
  same_contents (b1, p1) (b2, p2).
Proof.
  intros b1 p1 b2 p2 bs S1 S2 F H1 H2. injection H1 as H1. injection H2 as H2. rewrite <- H2 in H1. clear H2.
  assert (E : STR_Serialize Policies_Serialize b1 p1 = STR_Serialize Policies_Serialize b2 p2) by exact H1.
  (* replay with the serialized policies as associated data *)
  assert (X : same_contents (b1, Policies_Serialize p1) (b2, Policies_Serialize p2)).
  { apply (C15_str_serialization_unambiguous _ (fun x => x)); auto. }
  destruct X as (A1 & A2 & A3 & A4 & A5). cbn [fst snd] in *.
  apply C15_policies_unambiguous in A5; auto. repeat split; auto.
Qed.
Print Assumptions C15_dirstr_unambiguous.
Example C15_nonvacuous : str_sizes (mkBody (repeat x01 32) 3 2 (repeat x02 32) []) /\
  pol_same_format (NewPolicies 5 (repeat x03 32)) (NewPolicies 6 (repeat x04 32)).
Proof. repeat split; try reflexivity; cbv; reflexivity. Qed.

(** The sizes are needed, and the code does not check them on receipt: moving
    the boundary between the two hashes, or between version and hash algorithm
    in the policies, leaves the signed bytes unchanged. *)
Theorem C15_unchecked_sizes_refuted :
  (exists b1 b2 p, b1 <> b2 /\ s_hash b1 <> s_hash b2 /\
     DirSTR_Serialize (mkDir (Some b1) (Some p)) = DirSTR_Serialize (mkDir (Some b2) (Some p))) /\
  (exists b p1 p2, p1 <> p2 /\ pol_version p1 = Version /\
     DirSTR_Serialize (mkDir (Some b) (Some p1)) = DirSTR_Serialize (mkDir (Some b) (Some p2))).
Proof.
  split.
  - exists (mkBody [x01; x02] 1 0 [x03] []), (mkBody [x01] 1 0 [x02; x03] []), (NewPolicies 5 [x09]).
    split; [discriminate|]. split; [discriminate|reflexivity].
  - exists (mkBody [x01; x02] 1 0 [x03] []), (mkPol Version [x01; x02] [x03] 5), (mkPol (Version ++ [x01]) [x02] [x03] 5).
    split; [discriminate|]. split; reflexivity.
Qed.
Print Assumptions C15_unchecked_sizes_refuted.
(** [PreviousEpoch] of an epoch-0 STR is not covered by the signature. *)
Theorem C15_epoch0_previous_epoch_refuted : exists b1 b2 p, s_pepoch b1 <> s_pepoch b2 /\ s_sig b1 = s_sig b2 /\
  str_sizes b1 /\ str_sizes b2 /\
  DirSTR_Serialize (mkDir (Some b1) (Some p)) = DirSTR_Serialize (mkDir (Some b2) (Some p)).
Proof.
  exists (mkBody (repeat x01 32) 0 0 (repeat x02 32) []), (mkBody (repeat x01 32) 0 7 (repeat x02 32) []), (NewPolicies 5 []).
  split; [discriminate|]. split; [reflexivity|]. repeat split.
Qed.
Print Assumptions C15_epoch0_previous_epoch_refuted.

(** ** C16 *)
Theorem C16_history_is_a_chain : forall (C : Crypto), CryptoOk C -> forall A (ser : A -> bytes)
  ad0 sk vk len r1 r2 ops p hist,
  pad_built ser ad0 sk vk len r1 r2 ops p hist -> (N.of_nat (updates ops) < 2 ^ 64)%N ->
  length hist = S (updates ops) /\
  nth_error hist (updates ops) = Some (pd_latest p) /\
  (forall k s, nth_error hist k = Some s ->
     s_epoch (st_body s) = N.of_nat k /\
     s_pepoch (st_body s) = N.of_nat (k - 1) /\
     s_hash (st_body s) = t_hash (st_tree s) /\
     sign_verify (sign_pub sk) (STR_Serialize ser (st_body s) (st_ad s)) (s_sig (st_body s)) = true) /\
  (forall k s s', nth_error hist k = Some s -> nth_error hist (S k) = Some s' ->
     VerifyHashChain (st_body s') (st_body s) = true).
Proof.
  intros C OK A ser ad0 sk vk len r1 r2 ops p hist B U.
  pose proof (built_pad_inv OK ser ad0 sk vk len r1 r2 ops p hist B U) as I.
  split; [apply I|]. split; [apply I|]. split.
  - intros k s H. destruct (pi_hist _ _ _ _ _ _ _ _ I _ _ H). repeat split; auto.
    rewrite so_sig. apply ok_sign. exact OK.
  - intros k s s' H H'. pose proof (pi_hist _ _ _ _ _ _ _ _ I _ _ H) as S1. pose proof (pi_hist _ _ _ _ _ _ _ _ I _ _ H') as S2.
    unfold VerifyHashChain. rewrite (so_epoch _ _ _ _ _ _ _ _ S1), (so_epoch _ _ _ _ _ _ _ _ S2), (so_pepoch _ _ _ _ _ _ _ _ S2).
    rewrite (pi_chain _ _ _ _ _ _ _ _ I _ _ _ H H'), beq_refl.
    replace (S k - 1) with k by lia. rewrite N.eqb_refl.
    assert (k < updates ops).
    { apply nth_error_lt in H'. rewrite (pi_len _ _ _ _ _ _ _ _ I) in H'. lia. }
    unfold add64, two64. rewrite N.mod_small by lia. rewrite (proj2 (N.eqb_eq _ _)) by lia. reflexivity.
Qed.
Print Assumptions C16_history_is_a_chain.

(** Every history runs without a panic, and [NewPAD] fails only without entropy. *)
Theorem C16_history_runs : forall (C : Crypto), CryptoOk C -> forall A (ser : A -> bytes)
  ad0 sk vk len r1 r2 ops, (N.of_nat (updates ops) < 2 ^ 64)%N ->
  exists p hist, pad_built ser ad0 sk vk len (Some r1) (Some r2) ops p hist.
Proof.
  intros C OK A ser ad0 sk vk len r1 r2 ops U.
  destruct (NewPAD ser ad0 sk vk len (Some r1) (Some r2)) as [[p0|]|] eqn:N; try (cbv in N; discriminate N).
  destruct (run_pad_inv OK ser ad0 sk vk len ops p0 [] _ (new_pad_inv OK ser ad0 sk vk len _ _ _ N) U) as (p & iss & R & I).
  exists p, (pd_latest p0 :: iss), p0, iss. auto.
Qed.
Print Assumptions C16_history_runs.

(** ** C17 *)
(** Two chains of signed tree roots (newest first, any lengths) whose newest
    elements carry the same signature agree on everything below, unless two
    different signatures with the same hash, or one signature accepted for two
    different byte strings, can be read off the chains. *)
Theorem C17_fork_consistency : forall (C : Crypto) A (ser : A -> bytes) pk (l1 l2 : list (STRBody * A)),
  (forall x y, ser x = ser y -> x = y) ->
  Forall (fun x => str_sizes (fst x)) l1 -> Forall (fun x => str_sizes (fst x)) l2 ->
  Forall (signed ser pk) l1 -> Forall (signed ser pk) l2 ->
  linked l1 -> linked l2 ->
  (forall x y, nth_error l1 0 = Some x -> nth_error l2 0 = Some y -> s_sig (fst x) = s_sig (fst y)) ->
  (forall i x y, nth_error l1 i = Some x -> nth_error l2 i = Some y ->
     s_sig (fst x) = s_sig (fst y) /\ same_contents x y) \/
  collision_between (map (fun x => s_sig (fst x)) l1) (map (fun x => s_sig (fst x)) l2) \/
  (exists x y, In x l1 /\ In y l2 /\ s_sig (fst x) = s_sig (fst y) /\
     STR_Serialize ser (fst x) (snd x) <> STR_Serialize ser (fst y) (snd y) /\
     signed ser pk x /\ signed ser pk y).
Proof.
  intros C A ser pk l1. induction l1 as [|x l1 IH]; intros l2 Inj Z1 Z2 S1 S2 K1 K2 H0.
  { left. intros [|i] ? ? H; discriminate. }
  destruct l2 as [|y l2]. { left. intros [|i] ? ? _ H; discriminate. }
  specialize (H0 x y eq_refl eq_refl).
  inversion Z1; subst. inversion Z2; subst. inversion S1; subst. inversion S2; subst.
  destruct (list_eq_dec Byte.byte_eq_dec (STR_Serialize ser (fst x) (snd x)) (STR_Serialize ser (fst y) (snd y))) as [E|E].
  2:{ right. right. exists x, y. simpl. auto 10. }
  assert (SC : same_contents x y).
  { destruct x, y. apply (C15_str_serialization_unambiguous _ ser); auto. }
  assert (IH' : (forall a b, nth_error l1 0 = Some a -> nth_error l2 0 = Some b -> s_sig (fst a) = s_sig (fst b)) \/
     collision_between (map (fun x => s_sig (fst x)) (x :: l1)) (map (fun x => s_sig (fst x)) (y :: l2))).
  { destruct l1 as [|a l1], l2 as [|b l2]; try (left; intros; discriminate).
    destruct K1 as (V1 & _), K2 as (V2 & _). unfold VerifyHashChain in V1, V2.
    apply andb_prop in V1. destruct V1 as (_ & V1). apply andb_prop in V2. destruct V2 as (_ & V2).
    apply beq_eq in V1, V2. destruct SC as (_ & _ & _ & SC & _). rewrite SC, <- V2 in V1.
    unfold Digest in V1. simpl in V1. rewrite !app_nil_r in V1.
    destruct (list_eq_dec Byte.byte_eq_dec (s_sig (fst a)) (s_sig (fst b))) as [Es|Es].
    - left. intros ? ? Q1 Q2. injection Q1 as <-. injection Q2 as <-. exact Es.
    - right. exists (s_sig (fst a)), (s_sig (fst b)). simpl. split; auto. split; auto. split; auto. }
  assert (MON : forall (L1 L2 M1 M2 : list bytes), incl L1 M1 -> incl L2 M2 -> collision_between L1 L2 -> collision_between M1 M2).
  { intros L1 L2 M1 M2 I1 I2 (u & v & ? & ? & ?). exists u, v. auto. }
  destruct IH' as [IH'|IH']; [|auto].
  destruct (IH l2) as [G|[G|G]]; auto.
  - destruct l1; [exact I|apply K1].
  - destruct l2; [exact I|apply K2].
  - left. intros [|i] u v Hu Hv; [|apply (G i); auto]. injection Hu as <-. injection Hv as <-. auto.
  - right. left. eapply MON; [| |exact G]; simpl; apply incl_tl, incl_refl.
  - right. right. destruct G as (u & v & ? & ? & ?). exists u, v. simpl. auto.
Qed.
Print Assumptions C17_fork_consistency.

(** ** C18 *)
(** [p2] continues [p1]. *)
Definition pad_continues {C : Crypto} {A} (ser : A -> bytes) (p1 : PAD A) (ops : list (pad_op A)) (p2 : PAD A) : Prop :=
  exists issued, pad_run ser p1 ops = Ok (p2, issued).

Lemma continued {C : Crypto} (OK : CryptoOk C) {A} (ser : A -> bytes) ad0 sk vk len r1 r2 ops p hist ops' p' :
  pad_built ser ad0 sk vk len r1 r2 ops p hist -> (N.of_nat (updates (ops ++ ops')) < 2 ^ 64)%N ->
  pad_continues ser p ops' p' ->
  exists iss, pad_inv ser ad0 sk vk len p ops hist /\ pad_inv ser ad0 sk vk len p' (ops ++ ops') (hist ++ iss).
Proof.
  intros B U (iss & R).
  assert (U1 : (N.of_nat (updates ops) < 2 ^ 64)%N) by (rewrite updates_app in U; lia).
  pose proof (built_pad_inv OK _ _ _ _ _ _ _ _ _ _ B U1) as I.
  destruct (run_pad_inv OK _ _ _ _ _ ops' p ops hist I U) as (p2 & iss2 & R2 & I2).
  rewrite R in R2. injection R2 as <- <-. exists iss. auto.
Qed.

Theorem C18_snapshots_immutable : forall (C : Crypto), CryptoOk C -> forall A (ser : A -> bytes)
  ad0 sk vk len r1 r2 ops p hist ops' p' e s s',
  pad_built ser ad0 sk vk len r1 r2 ops p hist -> (N.of_nat (updates (ops ++ ops')) < 2 ^ 64)%N ->
  pad_continues ser p ops' p' ->
  (e <= s_epoch (st_body (pd_latest p)))%N ->      (* the epoch had been issued *)
  GetSTR p e = Some s -> GetSTR p' e = Some s' ->  (* and is still cached *)
  s' = s /\ forall key, LookupInEpoch p' key e = LookupInEpoch p key e.
Proof.
  intros C OK A ser ad0 sk vk len r1 r2 ops p hist ops' p' e s s' B U R L G G'.
  destruct (continued OK ser ad0 sk vk len r1 r2 ops p hist ops' p' B U R) as (iss & I & I').
  rewrite (latest_epoch ser ad0 sk vk len _ _ _ I) in L.
  destruct (getstr_hist ser ad0 sk vk len _ _ _ _ _ I G) as (k & N1 & L1 & E1).
  destruct (getstr_hist ser ad0 sk vk len _ _ _ _ _ I' G') as (k' & N2 & L2 & E2).
  rewrite updates_app in E2. assert (EK : k' = k) by lia. rewrite EK in N2.
  rewrite nth_error_app1 in N2 by (rewrite (pi_len _ _ _ _ _ _ _ _ I); lia).
  rewrite N1 in N2. injection N2 as <-. split; auto. intro key.
  unfold LookupInEpoch. rewrite G, G', (pi_vrf _ _ _ _ _ _ _ _ I), (pi_vrf _ _ _ _ _ _ _ _ I'). reflexivity.
Qed.
Print Assumptions C18_snapshots_immutable.

(** ** C19 *)
Definition only_sets {A} (ops : list (pad_op A)) : Prop := updates ops = 0.
Theorem C19_sets_invisible_until_update : forall (C : Crypto), CryptoOk C -> forall A (ser : A -> bytes)
  ad0 sk vk len r1 r2 ops p hist sets p',
  pad_built ser ad0 sk vk len r1 r2 ops p hist -> (N.of_nat (updates ops) < 2 ^ 64)%N ->
  only_sets sets -> pad_continues ser p sets p' ->
  pd_latest p' = pd_latest p /\ (forall key, Lookup p' key = Lookup p key) /\
  (forall key e, LookupInEpoch p' key e = LookupInEpoch p key e).
Proof.
  intros C OK A ser ad0 sk vk len r1 r2 ops p hist sets p' B U OS R.
  assert (U' : (N.of_nat (updates (ops ++ sets)) < 2 ^ 64)%N) by (rewrite updates_app, OS; lia).
  pose proof (built_pad_inv OK _ _ _ _ _ _ _ _ _ _ B U) as I.
  assert (G : pd_latest p' = pd_latest p /\ pd_snap p' = pd_snap p /\ pd_vrf p' = pd_vrf p).
  { destruct R as (iss & R). clear B U' U. revert p p' ops hist iss I OS R.
    induction sets as [|op sets IH]; intros p p' ops hist iss I OS R; cbn [pad_run] in R.
    - injection R as <- _. auto.
    - destruct op as [r key value|ad]; [|discriminate OS].
      destruct (set_pad_inv OK ser ad0 sk vk len p ops hist r key value I) as (p1 & E & I1 & S1 & S2 & S3 & _).
      rewrite E in R. cbn [bind] in R.
      destruct (pad_run ser p1 sets) as [[p2 iss2]|] eqn:R2; [|discriminate].
      cbn [bind] in R. injection R as <- _. destruct (IH p1 p2 _ _ _ I1 OS R2) as (-> & -> & ->). auto. }
  destruct G as (G1 & G2 & G3). split; auto.
  assert (G4 : forall key e, LookupInEpoch p' key e = LookupInEpoch p key e).
  { intros key e. unfold LookupInEpoch, GetSTR. rewrite G1, G2, G3. reflexivity. }
  split; auto. intro key. unfold Lookup. rewrite G1. auto.
Qed.
Print Assumptions C19_sets_invisible_until_update.

Theorem C19_visible_after_update : forall (C : Crypto), CryptoOk C -> forall A (ser : A -> bytes)
  ad0 sk vk len r1 r2 ops p hist ad key,
  pad_built ser ad0 sk vk len r1 r2 ops p hist -> (N.of_nat (S (updates ops)) < 2 ^ 64)%N ->
  vrf_spread 248 vk (key :: keys_of ops) ->
  exists ap leaf, Lookup (Update ser p ad) key = Ok (Some ap) /\ ap_leaf ap = Some leaf /\
    match last_put ops key with
    | Some b => ProofType ap = Ok ProofOfInclusion /\ pn_value leaf = Some (b_value b)
    | None => ProofType ap = Ok ProofOfAbsence /\ pn_value leaf = None
    end.
Proof.
  intros C OK A ser ad0 sk vk len r1 r2 ops p hist ad key B U SP.
  assert (U1 : (N.of_nat (updates ops) < 2 ^ 64)%N) by lia.
  pose proof (built_pad_inv OK _ _ _ _ _ _ _ _ _ _ B U1) as I.
  pose proof (update_pad_inv ser ad0 sk vk len p ops hist ad I U) as I'.
  set (p' := Update ser p ad) in *.
  assert (UP : updates (ops ++ [PUpdate ad]) = S (updates ops)) by (rewrite updates_app; simpl; lia).
  assert (SP' : vrf_spread 248 vk (key :: keys_of (ops ++ [PUpdate ad]))).
  { intros a b Ia Ib. rewrite keys_app in Ia, Ib. simpl in Ia, Ib. rewrite app_nil_r in Ia, Ib. apply SP; auto. }
  pose proof (pi_latest _ _ _ _ _ _ _ _ I') as NL.
  destruct (lookup_spec OK ser ad0 sk vk len p' _ _ (s_epoch (st_body (pd_latest p'))) (pd_latest p') (updates (ops ++ [PUpdate ad])) key I')
    as (ap & leaf & E & AL & _ & _ & M); auto.
  { unfold GetSTR. rewrite N.leb_refl. reflexivity. }
  exists ap, leaf. split; [exact E|]. split; [exact AL|].
  rewrite UP, upto_last in M. rewrite last_put_app in M. simpl in M.
  destruct (last_put ops key); tauto.
Qed.
Print Assumptions C19_visible_after_update.

(** ** C20 *)
(** [lo] is the oldest cached epoch. *)
Theorem C20_cache_window : forall (C : Crypto), CryptoOk C -> forall A (ser : A -> bytes)
  ad0 sk vk len r1 r2 ops p hist,
  pad_built ser ad0 sk vk len r1 r2 ops p hist -> (N.of_nat (updates ops) < 2 ^ 64)%N ->
  let n := updates ops in
  exists lo, lo <= n /\ S n - lo <= Nat.max 2 len /\ (lo = 0 \/ Nat.max 1 len / 2 < S n - lo) /\
    (forall e, lo <= e <= n -> exists s, nth_error hist e = Some s /\ GetSTR p (N.of_nat e) = Some s) /\
    (forall e, e < lo -> GetSTR p (N.of_nat e) = None /\ forall key, LookupInEpoch p key (N.of_nat e) = Ok None) /\
    (forall e, (N.of_nat n <= e)%N -> GetSTR p e = Some (pd_latest p)).
Proof.
  intros C OK A ser ad0 sk vk len r1 r2 ops p hist B U n.
  pose proof (built_pad_inv OK _ _ _ _ _ _ _ _ _ _ B U) as I.
  destruct (getstr_spec ser ad0 sk vk len _ _ _ I) as (lo & L & W & LO & _ & G1 & G2 & G3).
  exists lo. split; auto. split; auto. split; auto. split; [|split; [|exact G3]].
  - intros e (E1 & E2). rewrite G2 by auto.
    destruct (nth_error hist e) as [s|] eqn:N; eauto.
    apply nth_error_None in N. rewrite (pi_len _ _ _ _ _ _ _ _ I) in N. unfold n in E2. lia.
  - intros e He. rewrite (G1 e He). split; auto. intro key. unfold LookupInEpoch. rewrite (G1 e He). reflexivity.
Qed.
Print Assumptions C20_cache_window.

Theorem C20_evicted_stays_evicted : forall (C : Crypto), CryptoOk C -> forall A (ser : A -> bytes)
  ad0 sk vk len r1 r2 ops p hist ops' p' e,
  pad_built ser ad0 sk vk len r1 r2 ops p hist -> (N.of_nat (updates (ops ++ ops')) < 2 ^ 64)%N ->
  pad_continues ser p ops' p' ->
  GetSTR p e = None -> GetSTR p' e = None.
Proof.
  intros C OK A ser ad0 sk vk len r1 r2 ops p hist ops' p' e B U (iss & R).
  assert (U1 : (N.of_nat (updates ops) < 2 ^ 64)%N) by (rewrite updates_app in U; lia).
  pose proof (built_pad_inv OK _ _ _ _ _ _ _ _ _ _ B U1) as I. clear B U1.
  revert p ops hist iss I R U. induction ops' as [|op ops' IH]; intros p ops hist iss I R U G.
  - injection R as <- _. exact G.
  - cbn [pad_run] in R. destruct op as [r key value|ad].
    + destruct (set_pad_inv OK ser ad0 sk vk len p ops hist r key value I) as (p1 & E & I1 & S1 & S2 & S3 & _).
      rewrite E in R. cbn [bind] in R. destruct (pad_run ser p1 ops') as [[p2 iss2]|] eqn:R2; [|discriminate].
      cbn [bind] in R. injection R as <- _. apply (IH p1 _ _ _ I1 R2).
      * rewrite <- app_assoc. exact U.
      * unfold GetSTR. rewrite S1, S2. exact G.
    + cbn [pad_step bind] in R. destruct (pad_run ser (Update ser p ad) ops') as [[p2 iss2]|] eqn:R2; [|discriminate].
      cbn [bind] in R. injection R as <- _.
      assert (U2 : (N.of_nat (S (updates ops)) < 2 ^ 64)%N) by (rewrite updates_app in U; simpl in U; lia).
      pose proof (update_pad_inv ser ad0 sk vk len p ops hist ad I U2) as I1.
      apply (IH _ _ _ _ I1 R2); [rewrite <- app_assoc; exact U|].
      pose proof (latest_epoch _ _ _ _ _ _ _ _ I) as E1. pose proof (latest_epoch _ _ _ _ _ _ _ _ I1) as E2.
      rewrite updates_app in E2. simpl in E2.
      destruct (evict_spec ser ad0 sk vk len p ops hist I) as (lo & _ & _ & _ & EV & _).
      unfold GetSTR in *. rewrite E1 in G. rewrite E2.
      destruct (N.leb_spec (N.of_nat (updates ops)) e); [discriminate|].
      destruct (N.leb_spec (N.of_nat (updates ops + 1)) e); [lia|].
      unfold Update. destruct (evict p) as [snap loaded] eqn:EE. cbn [fst snd] in EV.
      unfold signTreeRoot. cbn [pd_snap]. rewrite (map_get_set_other _ N_eqb_spec).
      * apply EV; auto. intro Z. destruct (pi_cap _ _ _ _ _ _ _ _ I) as ((Q & _) & _). rewrite Z in Q. simpl in Q. lia.
      * rewrite E1. unfold add64, two64. rewrite N.mod_small by lia. lia.
Qed.
Print Assumptions C20_evicted_stays_evicted.

(** ** C21 *)
Theorem C21_cached_lookups_verify : forall (C : Crypto), CryptoOk C -> forall A (ser : A -> bytes)
  ad0 sk vk len r1 r2 ops p hist e s key,
  pad_built ser ad0 sk vk len r1 r2 ops p hist -> (N.of_nat (updates ops) < 2 ^ 64)%N ->
  vrf_good vk (key :: keys_of ops) ->
  GetSTR p e = Some s ->
  let k := Nat.min (N.to_nat e) (updates ops) in   (* a future epoch means the latest one *)
  nth_error hist k = Some s /\
  exists ap leaf, LookupInEpoch p key e = Ok (Some ap) /\ ap_leaf ap = Some leaf /\
    vrf_verify (vrf_pub vk) key (ap_lookup ap) (ap_vrf ap) = true /\
    match last_put (upto k ops) key with
    | Some b => ProofType ap = Ok ProofOfInclusion /\ pn_value leaf = Some (b_value b) /\
                Verify ap key (Some (b_value b)) (s_hash (st_body s)) = Ok None
    | None => ProofType ap = Ok ProofOfAbsence /\ pn_value leaf = None /\
              Verify ap key None (s_hash (st_body s)) = Ok None
    end.
Proof.
  intros C OK A ser ad0 sk vk len r1 r2 ops p hist e s key B U [SP VW] G k.
  pose proof (built_pad_inv OK _ _ _ _ _ _ _ _ _ _ B U) as I.
  destruct (getstr_hist ser ad0 sk vk len _ _ _ _ _ I G) as (k' & N & L & E). fold k in E. subst k'.
  split; auto.
  destruct (lookup_spec OK ser ad0 sk vk len p ops hist e s k key I G N L SP) as (ap & leaf & E & AL & LK & VR & M).
  exists ap, leaf. split; auto. split; auto. split; [rewrite LK, VR; apply VW; left; reflexivity|].
  destruct (last_put (upto k ops) key); intuition.
Qed.
Print Assumptions C21_cached_lookups_verify.

(** Non-vacuity of the PAD hypotheses: capacity 3, three updates (so that one
    epoch is evicted), an overwritten key, and keys whose indices are spread. *)
Definition pad_ex_ops : list (pad_op bytes) :=
  [PSet (Some [x01]) [x61] [x31]; PUpdate None; PSet (Some [x02]) [x62] [x32]; PSet (Some [x03]) [x61] [x33];
   PUpdate (Some [x05]); PUpdate None].
Example pad_nonvacuous : exists p hist,
  @pad_built ToyCrypto bytes (fun x => x) [x04] [x10] [x11] 3 (Some [x07]) (Some [x08]) pad_ex_ops p hist /\
  (N.of_nat (updates pad_ex_ops) < 2 ^ 64)%N /\
  @vrf_good ToyCrypto [x11] ([x63] :: keys_of pad_ex_ops) /\
  @GetSTR bytes p 0 = None /\ (exists s, @GetSTR bytes p 2 = Some s /\ s_epoch (st_body s) = 2%N) /\
  option_map b_value (@last_put ToyCrypto bytes (upto 1 pad_ex_ops) [x61]) = Some [x31] /\
  option_map b_value (@last_put ToyCrypto bytes (upto 2 pad_ex_ops) [x61]) = Some [x33].
Proof.
  destruct (C16_history_runs ToyCrypto ToyCrypto_ok bytes (fun x => x) [x04] [x10] [x11] 3 [x07] [x08] pad_ex_ops) as (p & hist & B).
  { cbv. reflexivity. }
  exists p, hist. split; [exact B|]. split; [cbv; reflexivity|].
  split.
  { split; [|intros k _; apply ToyCrypto_vrf]. intros a b Ia Ib E. simpl in Ia, Ib.
    destruct Ia as [<-|[<-|[<-|[<-|[]]]]], Ib as [<-|[<-|[<-|[<-|[]]]]]; try reflexivity; exfalso; vm_compute in E; discriminate E. }
  destruct B as (p0 & iss & N & R & _).
  assert (X : match @NewPAD ToyCrypto bytes (fun x => x) [x04] [x10] [x11] 3 (Some [x07]) (Some [x08]) with
     | Ok (Some p0) => match @pad_run ToyCrypto bytes (fun x => x) p0 pad_ex_ops with
        | Ok (p, _) => (match GetSTR p 0 with None => true | _ => false end) &&
            (match GetSTR p 2 with Some s => N.eqb (s_epoch (st_body s)) 2 | None => false end)
        | Panic => false end
     | _ => false end = true) by (vm_compute; reflexivity).
  rewrite N, R in X. apply andb_prop in X. destruct X as (X1 & X2).
  split; [destruct (GetSTR p 0); [discriminate X1|reflexivity]|].
  split; [destruct (GetSTR p 2) as [s|]; [|discriminate X2]; exists s; split; auto; apply N.eqb_eq; exact X2|].
  split; vm_compute; reflexivity.
Qed.
(** Two linked, signed chains with the same newest signature exist: the history
    of one PAD, newest first, and a suffix of it. *)
Theorem C17_nonvacuous : forall (C : Crypto), CryptoOk C -> forall A (ser : A -> bytes)
  ad0 sk vk len r1 r2 ops p hist,
  pad_built ser ad0 sk vk len r1 r2 ops p hist -> (N.of_nat (updates ops) < 2 ^ 64)%N ->
  let l := rev (map (fun s => (st_body s, st_ad s)) hist) in
  linked l /\ Forall (signed ser (sign_pub sk)) l /\ Forall (fun x => str_sizes (fst x)) l.
Proof.
  intros C OK A ser ad0 sk vk len r1 r2 ops p hist B U l.
  pose proof (built_pad_inv OK _ _ _ _ _ _ _ _ _ _ B U) as I.
  destruct (C16_history_is_a_chain C OK A ser ad0 sk vk len r1 r2 ops p hist B U) as (Ln & Lt & S1 & S2).
  split; [|split].
  - unfold l. clear l B I Lt S1. revert S2. clear. induction hist as [|s hist IH] using rev_ind; intro S2; [exact Logic.I|].
    rewrite map_app, rev_app_distr. simpl. destruct hist as [|s0 h] using rev_ind; [exact Logic.I|]. clear IHh.
    rewrite map_app, rev_app_distr in IH |- *. cbn [map rev app linked fst snd] in IH |- *. split.
    + apply (S2 (length h)).
      * rewrite nth_error_app1 by (rewrite app_length; simpl; lia). rewrite nth_error_app2, Nat.sub_diag by lia. reflexivity.
      * rewrite nth_error_app2 by (rewrite app_length; simpl; lia). rewrite app_length. cbn [length].
        replace (S (length h) - (length h + 1)) with 0 by lia. reflexivity.
    + apply IH. intros k a b Ha Hb. apply (S2 k); rewrite nth_error_app1; auto; eapply nth_error_lt; eauto.
  - apply Forall_forall. intros x Hx. unfold l in Hx. apply in_rev, in_map_iff in Hx. destruct Hx as (s & <- & Hs).
    apply In_nth_error in Hs. destruct Hs as (k & Hk). apply (S1 k s Hk).
  - apply Forall_forall. intros x Hx. unfold l in Hx. apply in_rev, in_map_iff in Hx. destruct Hx as (s & <- & Hs).
    apply In_nth_error in Hs. destruct Hs as (k & Hk). cbn [fst].
    pose proof (nth_error_lt _ _ _ Hk) as Lk. rewrite Ln in Lk.
    destruct (S1 k s Hk) as (E1 & E2 & E3 & E4). unfold str_sizes. rewrite E1, E2.
    split; [|split; [|split; lia]].
    + destruct (pi_hist _ _ _ _ _ _ _ _ I _ _ Hk). rewrite so_body, so_hash.
      destruct (t_root (st_tree s)); simpl; apply ok_shake_len; exact OK.
    + destruct k as [|k].
      * destruct B as (p0 & iss & N & R & ->). injection Hk as <-. unfold NewPAD in N.
        destruct (NewMerkleTree r1); [|discriminate]. unfold MakeRand in N. destruct r2; [|discriminate]. simpl in N.
        injection N as <-. simpl. apply ok_shake_len. exact OK.
      * destruct (nth_error hist k) as [s0|] eqn:H0; [|apply nth_error_None in H0; lia].
        rewrite (pi_chain _ _ _ _ _ _ _ _ I _ _ _ H0 Hk). apply ok_shake_len. exact OK.
Qed.
Print Assumptions C17_nonvacuous.

(** ** C10 *)
(** After the VRF key was replaced by [vk'], [reshuffle] keeps the set of
    bindings: in the new tree every key shows the value it had. *)
Theorem C10_reshuffle_preserves_bindings : forall (C : Crypto), CryptoOk C -> forall A (ser : A -> bytes)
  ad0 sk vk len r1 r2 ops p hist vk' r rs q key,
  pad_built ser ad0 sk vk len r1 r2 ops p hist -> (N.of_nat (updates ops) < 2 ^ 64)%N ->
  vrf_spread 256 vk (key :: keys_of ops) -> vrf_spread 248 vk' (key :: keys_of ops) ->
  reshuffle (with_vrf p vk') r rs = Ok q ->
  pd_vrf q = vk' /\ pd_latest q = pd_latest p /\ (forall e, GetSTR q e = GetSTR p e) /\
  exists ap leaf, Get (recomputeHash (pd_tree q)) (idx_of vk' key) = Ok ap /\ ap_leaf ap = Some leaf /\
    match last_put ops key with
    | Some b => ProofType ap = Ok ProofOfInclusion /\ pn_value leaf = Some (b_value b) /\
                Verify ap key (Some (b_value b)) (t_hash (recomputeHash (pd_tree q))) = Ok None
    | None => ProofType ap = Ok ProofOfAbsence /\ pn_value leaf = None /\
              Verify ap key None (t_hash (recomputeHash (pd_tree q))) = Ok None
    end.
Proof.
  intros C OK A ser ad0 sk vk len r1 r2 ops p hist vk' r rs q key B U SP SP' R.
  pose proof (built_pad_inv OK _ _ _ _ _ _ _ _ _ _ B U) as I. pose proof (pi_tree _ _ _ _ _ _ _ _ I) as TI.
  unfold reshuffle in R. destruct (NewMerkleTree r) as [t0|] eqn:N; [|discriminate].
  cbn [with_vrf pd_tree pd_sign pd_vrf pd_snap pd_loaded pd_cap pd_latest pd_ad] in R.
  set (ds := leaves (t_root (pd_tree p))) in *.
  pose proof (new_tree_inv 32 r t0 ltac:(lia) N) as I0.
  pose proof (reshuffle_loop_spec OK vk' (with_vrf p vk') ds rs t0 _ eq_refl I0) as RL.
  destruct (reshuffle_loop (with_vrf p vk') ds rs t0) as [t|]; [|discriminate].
  cbn [bind] in R. injection R as <-. cbn [pd_vrf pd_latest pd_tree]. split; auto. split; auto. split; auto.
  destruct RL as (Nn & LL & FF & IT). change (last_set_from (fun _ => None)) with (@last_set C) in IT.
  destruct (rehash_inv 32 t _ IT) as (IT' & Nn' & Hh & CL & _).
  (* facts about the leaves *)
  assert (LF : forall d, In d ds -> In (l_key d) (keys_of ops) /\ exists b, last_put ops (l_key d) = Some b /\ l_value d = b_value b).
  { intros d Hd. apply (ti_leaves _ _ _ TI) in Hd. destruct Hd as (i & b & F & ->). cbn [leaf_of l_key l_value].
    destruct (last_set_stored vk ops i b F) as (k' & Ik & ->).
    rewrite last_put_set in F.
    2:{ intros k2 I2 E2. apply (vrf_spread_inj vk 256 (key :: keys_of ops)); simpl; auto. }
    assert (b_key b = k').
    { clear -F. revert b F. induction ops as [|op ops IH] using rev_ind; intros b F; [discriminate|].
      rewrite last_put_app in F. simpl in F. destruct op as [[r|] k v|ad]; simpl in F; auto.
      destruct (beq_spec k' k) as [->|NE]; auto. injection F as <-. reflexivity. }
    subst k'. split; auto. exists b. auto. }
  assert (KS : forall k, In k (keys_of (rs_ops (A := A) ds rs)) -> In k (keys_of ops)).
  { intros k Hk. unfold keys_of, rs_ops in Hk. rewrite flat_map_concat_map, map_map in Hk. apply in_concat in Hk.
    destruct Hk as (l & Il & Ik). apply in_map_iff in Il. destruct Il as ([d rr] & <- & Hd). simpl in Ik. destruct Ik as [<-|[]].
    apply in_combine_l in Hd. apply LF in Hd. apply Hd. }
  assert (CL' : clean (t_nonce (recomputeHash t)) (t_root (recomputeHash t))) by (rewrite Nn'; exact CL).
  assert (SP2 : vrf_spread 248 vk' (key :: keys_of (rs_ops (A := A) ds rs))).
  { intros a b Ia Ib. apply SP'; simpl in *; intuition auto. }
  destruct (get_by_key OK vk' (recomputeHash t) (rs_ops ds rs) key IT' CL' SP2) as (ap & leaf & G & AL & _ & M).
  exists ap, leaf. split; auto. split; auto.
  rewrite Hh. rewrite Nn', (eq_sym (fresh_strip _ (t_root (recomputeHash t)))) in M.
  destruct (rehash_inv 32 t _ IT) as (_ & _ & _ & _ & ST). rewrite ST, fresh_strip in M.
  destruct (last_put ops key) as [b|] eqn:LP.
  - assert (Ik : In key (keys_of ops)) by (eapply last_put_in; eauto).
    assert (Hset : last_set (tops vk ops) (idx_of vk key) = Some b).
    { rewrite last_put_set; auto. intros k2 I2 E2. apply (vrf_spread_inj vk 256 (key :: keys_of ops)); simpl; auto. }
    assert (Hd : In (leaf_of (idx_of vk key) b) ds).
    { apply (ti_leaves _ _ _ TI). eauto. }
    destruct (LF _ Hd) as (_ & b' & LP' & EV'). cbn [leaf_of l_key l_value] in *.
    assert (KB : b_key b = key).
    { clear -LP. revert b LP. induction ops as [|op ops IH] using rev_ind; intros b F; [discriminate|].
      rewrite last_put_app in F. simpl in F. destruct op as [[r|] k v|ad]; simpl in F; auto.
      destruct (beq_spec key k) as [->|NE]; auto. injection F as <-. reflexivity. }
    destruct (last_put_rs (A := A) ds rs key (leaf_of (idx_of vk key) b) Hd KB) as (b2 & LP2 & EV2); auto.
    { intros d' Hd' Kd'. destruct (LF _ Hd') as (_ & b3 & LP3 & EV3). cbn [leaf_of l_value].
      rewrite Kd', LP in LP3. injection LP3 as <-. exact EV3. }
    rewrite LP2, EV2 in M. cbn [leaf_of l_value] in M. tauto.
  - rewrite last_put_none_rs in M.
    2:{ intros d Hd E. destruct (LF _ Hd) as (_ & b & LPb & _). congruence. }
    intuition.
Qed.
Print Assumptions C10_reshuffle_preserves_bindings.
(** Given enough entropy it does not panic. *)
Theorem C10_reshuffle_total : forall (C : Crypto), CryptoOk C -> forall A (ser : A -> bytes)
  ad0 sk vk len r1 r2 ops p hist vk' r,
  pad_built ser ad0 sk vk len r1 r2 ops p hist -> (N.of_nat (updates ops) < 2 ^ 64)%N ->
  exists n, forall rs, n <= length rs -> ~ In None rs -> exists q, reshuffle (with_vrf p vk') (Some r) rs = Ok q.
Proof.
  intros C OK A ser ad0 sk vk len r1 r2 ops p hist vk' r B U.
  exists (length (leaves (t_root (pd_tree p)))). intros rs L NN.
  unfold reshuffle. destruct (NewMerkleTree (Some r)) as [t0|] eqn:N; [|discriminate N].
  pose proof (new_tree_inv 32 (Some r) t0 ltac:(lia) N) as I0.
  pose proof (reshuffle_loop_spec OK vk' (with_vrf p vk') (leaves (t_root (pd_tree p))) rs t0 _ eq_refl I0) as RL.
  cbn [with_vrf pd_tree] in *.
  destruct (reshuffle_loop _ _ _ _); [eexists; reflexivity|]. destruct RL as [RL|RL]; [lia|tauto].
Qed.
Print Assumptions C10_reshuffle_total.
Example C10_nonvacuous : @vrf_spread ToyCrypto 256 [x11] ([x63] :: keys_of pad_ex_ops) /\
  @vrf_spread ToyCrypto 248 [x12] ([x63] :: keys_of pad_ex_ops) /\
  @idx_of ToyCrypto [x11] [x61] <> @idx_of ToyCrypto [x12] [x61].
Proof.
  split; [|split; [|vm_compute; intro H; discriminate H]]; intros a b Ia Ib E; simpl in Ia, Ib;
    destruct Ia as [<-|[<-|[<-|[<-|[]]]]], Ib as [<-|[<-|[<-|[<-|[]]]]]; try reflexivity; exfalso; vm_compute in E; discriminate E.
Qed.
