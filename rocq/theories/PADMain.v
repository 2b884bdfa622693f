(** Lookups, snapshots and reshuffling: lemmas behind Prop_PAD.v. *)
From Coq Require Import List NArith Lia Bool Arith.
From Verif Require Import Base Utils Crypto Tree TreeSpec TreeFacts TreeHist PathFacts SoundFacts TreeMain STR PAD PADSpec PADFacts.
Import ListNotations.

Section Main.
  Context {C : Crypto} (OK : CryptoOk C) {A : Type} (ser : A -> bytes).
  Variables (ad0 : A) (sk vk : bytes) (len : nat).
  Notation pad_inv := (pad_inv ser ad0 sk vk len).

  Lemma latest_epoch p ops hist : pad_inv p ops hist -> s_epoch (st_body (pd_latest p)) = N.of_nat (updates ops).
  Proof. intro I. exact (so_epoch _ _ _ _ _ _ _ _ (pi_hist _ _ _ _ _ _ _ _ I _ _ (pi_latest _ _ _ _ _ _ _ _ I))). Qed.

  Lemma getstr_spec p ops hist : pad_inv p ops hist ->
    exists lo, lo <= updates ops /\ S (updates ops) - lo <= Nat.max 2 len /\
      (lo = 0 \/ Nat.max 1 len / 2 < S (updates ops) - lo) /\
      pd_loaded p = map N.of_nat (seq lo (S (updates ops) - lo)) /\
      (forall e, e < lo -> GetSTR p (N.of_nat e) = None) /\
      (forall e, lo <= e -> e <= updates ops -> GetSTR p (N.of_nat e) = nth_error hist e) /\
      (forall e, (N.of_nat (updates ops) <= e)%N -> GetSTR p e = Some (pd_latest p)).
  Proof.
    intro I. pose proof (latest_epoch p ops hist I) as E. destruct I.
    destruct pi_loaded as (lo & L & EL & G & LO). exists lo. unfold GetSTR. rewrite E.
    assert (LL : length (pd_loaded p) = S (updates ops) - lo) by (rewrite EL, map_length, seq_length; reflexivity).
    split; auto. split; [lia|]. split.
    { destruct LO as [LO|LO]; auto. right. rewrite <- LL.
      assert (Nat.max 1 len / 2 <= pd_cap p / 2) by (apply Nat.div_le_mono; lia). lia. }
    split; auto. split; [|split].
    - intros e He. destruct (N.leb_spec (N.of_nat (updates ops)) (N.of_nat e)); [lia|].
      rewrite G. destruct (Nat.leb_spec lo e); [lia|reflexivity].
    - intros e H1 H2. destruct (N.leb_spec (N.of_nat (updates ops)) (N.of_nat e)).
      + assert (e = updates ops) by lia. subst. auto.
      + rewrite G. destruct (Nat.leb_spec lo e); [reflexivity|lia].
    - intros e He. destruct (N.leb_spec (N.of_nat (updates ops)) e); [reflexivity|lia].
  Qed.

  Lemma getstr_hist p ops hist e s : pad_inv p ops hist -> GetSTR p e = Some s ->
    exists k, nth_error hist k = Some s /\ k <= updates ops /\ k = Nat.min (N.to_nat e) (updates ops).
  Proof.
    intros I G. destruct (getstr_spec p ops hist I) as (lo & L & _ & _ & _ & G1 & G2 & G3).
    destruct (N.leb_spec (N.of_nat (updates ops)) e) as [H|H].
    - rewrite (G3 e H) in G. injection G as <-. exists (updates ops).
      split; [apply I|]. lia.
    - rewrite <- (N2Nat.id e) in G. destruct (Nat.lt_ge_cases (N.to_nat e) lo).
      + rewrite G1 in G by auto. discriminate.
      + rewrite G2 in G by lia. exists (N.to_nat e). split; auto. lia.
  Qed.

  Lemma vrf_spread_le n m ks : n <= m -> vrf_spread n vk ks -> vrf_spread m vk ks.
  Proof. intros L H a b Ia Ib E. apply H; auto. eapply firstn_le_eq; eauto. Qed.
  Lemma vrf_spread_inj n ks a b : vrf_spread n vk ks -> In a ks -> In b ks -> idx_of vk a = idx_of vk b -> a = b.
  Proof. intros H Ia Ib E. apply H; auto. rewrite E. reflexivity. Qed.

  Lemma vrf_good_incl ks ks' : (forall k, In k ks' -> In k ks) -> vrf_good vk ks -> vrf_good vk ks'.
  Proof. intros H [S W]. split; [intros a b Ia Ib; apply S; auto|auto]. Qed.

  (** What a tree holding a history answers, by key. *)
  Lemma get_by_key m ops key :
    tree_inv 32 m (last_set (tops vk ops)) -> clean (t_nonce m) (t_root m) ->
    vrf_spread 248 vk (key :: keys_of ops) ->
    exists ap leaf, Get m (idx_of vk key) = Ok ap /\ ap_leaf ap = Some leaf /\ ap_lookup ap = idx_of vk key /\
      match last_put (A := A) ops key with
      | Some b => b_key b = key /\ ProofType ap = Ok ProofOfInclusion /\ pn_value leaf = Some (b_value b) /\
           Verify ap key (Some (b_value b)) (fresh_hash (t_nonce m) (t_root m)) = Ok None
      | None => ProofType ap = Ok ProofOfAbsence /\ pn_value leaf = None /\
           forall k v, Verify ap k v (fresh_hash (t_nonce m) (t_root m)) = Ok None
      end.
  Proof.
    intros I CL SP.
    assert (LI : length (idx_of vk key) = 32) by (apply ok_vrf_len; exact OK).
    destruct (get_complete OK 32 m _ (idx_of vk key) I CL LI) as (ap & leaf & G & AL & LK & H).
    exists ap, leaf. split; auto. split; auto. split; auto.
    assert (EQ : last_set (tops vk ops) (idx_of vk key) = last_put ops key).
    { apply last_put_set. intros k Ik E. eapply vrf_spread_inj; eauto; simpl; auto. }
    rewrite EQ in H. destruct (last_put ops key) as [b|] eqn:LP.
    - assert (b_key b = key).
      { clear -LP. revert b LP. induction ops as [|op ops IH] using rev_ind; intros b LP; [discriminate|].
        rewrite last_put_app in LP. simpl in LP. destruct op as [[r|] k v|ad]; simpl in LP; auto.
        destruct (beq_spec key k) as [->|N]; auto. injection LP as <-. reflexivity. }
      destruct H as (H1 & H2 & H3). subst key. auto.
    - apply H. apply (absent_index OK 32 m (last_set (tops vk ops)) (idx_of vk key) ap leaf); auto; try lia.
      intros x y Hx Hy E.
      destruct (last_set (tops vk ops) x) as [bx|] eqn:Ex; [|congruence].
      destruct (last_set (tops vk ops) y) as [bY|] eqn:Ey; [|congruence].
      apply last_set_stored in Ex, Ey. destruct Ex as (k1 & I1 & ->), Ey as (k2 & I2 & ->).
      f_equal. apply SP; simpl; auto.
  Qed.

  Lemma lookup_spec p ops hist e s k key :
    pad_inv p ops hist -> GetSTR p e = Some s -> nth_error hist k = Some s -> k <= updates ops ->
    vrf_spread 248 vk (key :: keys_of ops) ->
    exists ap leaf, LookupInEpoch p key e = Ok (Some ap) /\ ap_leaf ap = Some leaf /\
      ap_lookup ap = idx_of vk key /\ ap_vrf ap = snd (vrf_prove vk key) /\
      match last_put (upto k ops) key with
      | Some b => b_key b = key /\ ProofType ap = Ok ProofOfInclusion /\ pn_value leaf = Some (b_value b) /\
           Verify ap key (Some (b_value b)) (s_hash (st_body s)) = Ok None
      | None => ProofType ap = Ok ProofOfAbsence /\ pn_value leaf = None /\
           forall n v, Verify ap n v (s_hash (st_body s)) = Ok None
      end.
  Proof.
    intros I G H L SP. pose proof (pi_hist _ _ _ _ _ _ _ _ I _ _ H) as SO. destruct SO.
    assert (SP' : vrf_spread 248 vk (key :: keys_of (upto k ops))).
    { intros a b Ia Ib. apply SP; simpl in *; intuition eauto using keys_upto. }
    destruct (get_by_key (st_tree s) (upto k ops) key so_tree so_clean SP') as (ap & leaf & E & AL & LK & M).
    unfold LookupInEpoch. rewrite G, (pi_vrf _ _ _ _ _ _ _ _ I).
    unfold idx_of in E. destruct (vrf_prove vk key) as [ix pr] eqn:VP. cbn [fst] in E. rewrite E. cbn [bind].
    exists (mkAP (ap_nonce ap) (ap_pruned ap) (ap_lookup ap) pr (ap_leaf ap)), leaf.
    split; auto. split; auto. split; auto. split; auto.
    rewrite so_body, so_hash. destruct ap. exact M.
  Qed.

  (** ** Reshuffle *)
  Definition rs_ops (ds : list leafdata) (rs : list (option bytes)) : list (pad_op A) :=
    map (fun p => PSet (snd p) (l_key (fst p)) (l_value (fst p))) (combine ds rs).

  Lemma reshuffle_loop_spec vk' (p : PAD A) ds : forall rs t f,
    pd_vrf p = vk' ->
    tree_inv 32 t f ->
    match reshuffle_loop p ds rs t with
    | Panic => length rs < length ds \/ In None rs
    | Ok t' => t_nonce t' = t_nonce t /\ length ds <= length rs /\ Forall (fun r => r <> None) (firstn (length ds) rs) /\
               tree_inv 32 t' (last_set_from f (tops vk' (rs_ops ds rs)))
    end.
  Proof.
    induction ds as [|d ds IH]; intros rs t f V I.
    - destruct rs; simpl; repeat split; auto; try lia; apply I.
    - destruct rs as [|r rs]; simpl; [left; lia|].
      unfold Index. rewrite V.
      destruct (set_inv 32 t f r (idx_of vk' (l_key d)) (l_key d) (l_value d) I) as (o & E & H).
      { apply ok_vrf_len. exact OK. }
      unfold idx_of in E. rewrite E. cbn [bind]. destruct o as [t'|].
      + destruct H as (Nr & Nn & I').
        specialize (IH rs t' _ V I'). destruct (reshuffle_loop p ds rs t') as [t''|].
        * destruct IH as (N' & LL & FF & I''). split; [congruence|]. split; [lia|]. split; [constructor; auto|exact I''].
        * simpl. destruct IH as [IH|IH]; [left; lia|auto].
      + subst r. right. simpl. auto.
  Qed.

  Lemma last_put_in (ops : list (pad_op A)) key b : last_put ops key = Some b -> In key (keys_of ops).
  Proof.
    revert b. induction ops as [|op ops IH] using rev_ind; intros b H; [discriminate|].
    rewrite last_put_app in H. rewrite keys_app, in_app_iff. simpl in H.
    destruct op as [[r|] k v|ad]; simpl in *; eauto.
    destruct (beq_spec key k) as [->|N]; eauto.
  Qed.

  Lemma last_put_none_rs ds rs key :
    (forall d, In d ds -> l_key d <> key) -> last_put (rs_ops ds rs) key = None.
  Proof.
    intro H. destruct (last_put (rs_ops ds rs) key) eqn:E; auto. apply last_put_in in E.
    unfold keys_of, rs_ops in E. rewrite flat_map_concat_map, map_map in E.
    apply in_concat in E. destruct E as (l & Il & Ik). apply in_map_iff in Il. destruct Il as ([d r] & <- & Hd).
    simpl in Ik. destruct Ik as [Ik|[]]. apply in_combine_l in Hd. exfalso. eapply H; eauto.
  Qed.

  Lemma last_put_rs ds : forall rs key d,
    In d ds -> l_key d = key -> (forall d', In d' ds -> l_key d' = key -> l_value d' = l_value d) ->
    length ds <= length rs -> Forall (fun r => r <> None) (firstn (length ds) rs) ->
    exists b, last_put (rs_ops ds rs) key = Some b /\ b_value b = l_value d.
  Proof.
    induction ds as [|d0 ds IH] using rev_ind; intros rs key d Id Ek Uq LL FF; [destruct Id|].
    rewrite app_length in LL, FF. simpl in LL, FF.
    assert (ERS : exists r0 r rs', rs = r0 ++ r :: rs' /\ length r0 = length ds).
    { exists (firstn (length ds) rs). destruct (skipn (length ds) rs) as [|r rs'] eqn:S.
      - apply (f_equal (@length _)) in S. rewrite skipn_length in S. simpl in S. lia.
      - exists r, rs'. rewrite <- S, firstn_skipn. split; auto. rewrite firstn_length. lia. }
    destruct ERS as (r0 & r & rs' & -> & Lr).
    assert (EO : rs_ops (ds ++ [d0]) (r0 ++ r :: rs') = rs_ops ds r0 ++ [PSet r (l_key d0) (l_value d0)]).
    { unfold rs_ops.
      assert (CA : forall (a1 a2 : list leafdata) (b1 b2 : list (option bytes)), length a1 = length b1 ->
        combine (a1 ++ a2) (b1 ++ b2) = combine a1 b1 ++ combine a2 b2).
      { clear. induction a1; intros a2 [|b b1] b2 L; simpl in *; try lia; auto. f_equal. apply IHa1. lia. }
      rewrite CA by auto. rewrite map_app. destruct rs'; reflexivity. }
    rewrite EO, last_put_app. simpl.
    replace (length ds + 1) with (length (r0 ++ [r])) in FF by (rewrite app_length; simpl; lia).
    replace (r0 ++ r :: rs') with ((r0 ++ [r]) ++ rs') in FF by (rewrite <- app_assoc; reflexivity).
    rewrite firstn_app, Nat.sub_diag, firstn_all in FF. simpl in FF. rewrite app_nil_r in FF.
    apply Forall_app in FF. destruct FF as (F1 & F2). inversion F2; subst. destruct r as [r|]; [|congruence].
    destruct (beq_spec (l_key d) (l_key d0)) as [E|N].
    - eexists. split; [reflexivity|]. cbn [b_value].
      apply Uq; auto. rewrite in_app_iff. simpl. auto.
    - rewrite in_app_iff in Id. destruct Id as [Id|[Id|[]]]; [|congruence].
      apply (IH r0 (l_key d) d); auto; try lia.
      + intros d' I' E'. apply Uq; auto. rewrite in_app_iff. auto.
      + rewrite <- Lr, firstn_all. exact F1.
  Qed.
End Main.
