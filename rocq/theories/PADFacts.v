(** Invariant of PAD histories. *)
From Coq Require Import List NArith Lia Bool Arith Permutation.
From Verif Require Import Base Utils Crypto Tree TreeFacts TreeSpec TreeHist PathFacts SoundFacts TreeMain STR PAD PADSpec.
Import ListNotations.

Section Hist.
  Context {A : Type}.
  Lemma updates_app (a b : list (pad_op A)) : updates (a ++ b) = updates a + updates b.
  Proof. induction a as [|[] a IH]; simpl; auto. Qed.
  Lemma upto_app k (a b : list (pad_op A)) : k <= updates a -> upto k (a ++ b) = upto k a.
  Proof.
    revert k; induction a as [|op a IH]; intros k H.
    - simpl in H. assert (k = 0) by lia. subst. destruct b; reflexivity.
    - destruct k; [reflexivity|]. destruct op; simpl in *; f_equal; apply IH; lia.
  Qed.
  Lemma upto_last (a : list (pad_op A)) ad : upto (S (updates a)) (a ++ [PUpdate ad]) = a ++ [PUpdate ad].
  Proof.
    induction a as [|op a IH]; [reflexivity|]. destruct op; simpl; f_equal; apply IH.
  Qed.
  Lemma upto_incl k (a : list (pad_op A)) x : In x (upto k a) -> In x a.
  Proof.
    revert k; induction a as [|op a IH]; intros k; destruct k; simpl; try tauto; destruct op; simpl; intros [|H]; eauto.
  Qed.
  Lemma keys_app (a b : list (pad_op A)) : keys_of (a ++ b) = keys_of a ++ keys_of b.
  Proof. apply flat_map_app. Qed.
  Lemma keys_upto k (a : list (pad_op A)) x : In x (keys_of (upto k a)) -> In x (keys_of a).
  Proof.
    unfold keys_of. rewrite !in_flat_map. intros (op & H & I). exists op. split; auto. eapply upto_incl; eauto.
  Qed.
End Hist.

Section Facts.
  Context {C : Crypto} (OK : CryptoOk C) {A : Type} (ser : A -> bytes).
  Let Hlen := ok_shake_len _ OK.
  Variables (ad0 : A) (sk vk : bytes) (len : nat).

  Lemma tops_app (a b : list (pad_op A)) : tops vk (a ++ b) = tops vk a ++ tops vk b.
  Proof. apply map_app. Qed.
  Lemma last_set_app a b : last_set (a ++ b) = last_set_from (last_set a) b.
  Proof. unfold last_set, last_set_from. rewrite fold_left_app. reflexivity. Qed.
  Lemma last_put_app (a b : list (pad_op A)) : last_put (a ++ b) = fold_left put_step b (last_put a).
  Proof. unfold last_put. rewrite fold_left_app. reflexivity. Qed.

  (** By name and by index agree when the indices of the keys used are distinct. *)
  Lemma last_put_set (ops : list (pad_op A)) key :
    (forall k, In k (keys_of ops) -> idx_of vk k = idx_of vk key -> k = key) ->
    last_set (tops vk ops) (idx_of vk key) = last_put ops key.
  Proof.
    induction ops as [|op ops IH] using rev_ind; intro H; [reflexivity|].
    rewrite tops_app, last_set_app, last_put_app. simpl.
    assert (H' : forall k, In k (keys_of ops) -> idx_of vk k = idx_of vk key -> k = key).
    { intros k Hk. apply H. rewrite keys_app, in_app_iff. auto. }
    specialize (IH H'). destruct op as [[r|] k v|ad]; simpl; auto.
    destruct (beq_spec key k) as [->|N].
    - rewrite beq_refl. reflexivity.
    - destruct (beq_spec (idx_of vk key) (idx_of vk k)) as [E|_]; auto.
      exfalso. apply N. symmetry. apply H; auto. rewrite keys_app, in_app_iff. right. simpl. auto.
  Qed.

  Lemma last_set_stored (ops : list (pad_op A)) j b :
    last_set (tops vk ops) j = Some b -> exists k, In k (keys_of ops) /\ j = idx_of vk k.
  Proof.
    induction ops as [|op ops IH] using rev_ind; [discriminate|].
    rewrite tops_app, last_set_app, keys_app. simpl. intro H.
    assert (G : last_set (tops vk ops) j = Some b -> exists k, In k (keys_of ops ++ keys_of [op]) /\ j = idx_of vk k).
    { intro E. destruct (IH E) as (k & I & E'). exists k. rewrite in_app_iff. auto. }
    destruct op as [[r|] k v|ad]; simpl in H; auto.
    destruct (beq_spec j (idx_of vk k)) as [->|N]; auto.
    exists k. split; auto. rewrite in_app_iff. simpl. auto.
  Qed.

  (** ** The invariant *)

  Record str_ok (nonce : bytes) (ops : list (pad_op A)) (k : nat) (s : SignedTreeRoot A) : Prop := {
    so_epoch : s_epoch (st_body s) = N.of_nat k;
    so_pepoch : s_pepoch (st_body s) = N.of_nat (k - 1);
    so_tree : tree_inv 32 (st_tree s) (last_set (tops vk (upto k ops)));
    so_nonce : t_nonce (st_tree s) = nonce;
    so_clean : clean (t_nonce (st_tree s)) (t_root (st_tree s));
    so_hash : t_hash (st_tree s) = fresh_hash (t_nonce (st_tree s)) (t_root (st_tree s));
    so_body : s_hash (st_body s) = t_hash (st_tree s);
    so_sig : s_sig (st_body s) = sign_sign sk (STR_Serialize ser (st_body s) (st_ad s));
    so_ad : st_ad s = ad_after ad0 (upto (k - 1) ops)
  }.

  Record pad_inv (p : PAD A) (ops : list (pad_op A)) (hist : list (SignedTreeRoot A)) : Prop := {
    pi_sign : pd_sign p = sk;
    pi_vrf : pd_vrf p = vk;
    pi_nonce : length (t_nonce (pd_tree p)) = 32;
    pi_tree : tree_inv 32 (pd_tree p) (last_set (tops vk ops));
    pi_len : length hist = S (updates ops);
    pi_hist : forall k s, nth_error hist k = Some s -> str_ok (t_nonce (pd_tree p)) ops k s;
    pi_chain : forall k s s', nth_error hist k = Some s -> nth_error hist (S k) = Some s' ->
        s_phash (st_body s') = Digest [s_sig (st_body s)];
    pi_latest : nth_error hist (updates ops) = Some (pd_latest p);
    pi_ad : pd_ad p = ad_after ad0 ops;
    pi_loaded : exists lo, lo <= updates ops /\
        pd_loaded p = map N.of_nat (seq lo (S (updates ops) - lo)) /\
        (forall e, map_get N.eqb (N.of_nat e) (pd_snap p) =
          if Nat.leb lo e then nth_error hist e else None) /\
        (lo = 0 \/ pd_cap p / 2 < length (pd_loaded p));
    pi_cap : 1 <= length (pd_loaded p) <= pd_cap p /\ pd_cap p <= Nat.max 2 len /\ Nat.max 1 len <= pd_cap p
  }.

  Lemma serialize_unsigned b ad : STR_Serialize ser (mkBody (s_hash b) (s_epoch b) (s_pepoch b) (s_phash b) []) ad =
     STR_Serialize ser b ad.
  Proof. reflexivity. Qed.

  Lemma clone_fresh nonce m : clean nonce (t_root m) -> Clone m = m.
  Proof. intro H. unfold Clone. rewrite (clone_clean nonce) by auto. destruct m; reflexivity. Qed.

  Lemma new_pad_inv r1 r2 p : NewPAD ser ad0 sk vk len r1 r2 = Ok (Some p) -> pad_inv p [] [pd_latest p].
  Proof.
    unfold NewPAD. destruct (NewMerkleTree r1) as [t|] eqn:N; [|discriminate].
    destruct (MakeRand r2) as [ph|]; [|discriminate]. unfold signTreeRoot. cbn [fst snd].
    intro H. injection H as <-.
    pose proof (new_tree_inv 32 r1 t ltac:(lia) N) as I.
    destruct (rehash_inv 32 t _ I) as (I' & Nn & Hh & Cl & St).
    assert (E : Clone (recomputeHash t) = recomputeHash t).
    { apply (clone_fresh (t_nonce t)); auto. }
    constructor; cbn [pd_sign pd_vrf pd_tree pd_snap pd_loaded pd_cap pd_latest pd_ad]; auto.
    - rewrite Nn. eapply new_tree_nonce; eauto.
    - intros k s Hk. destruct k as [|[|k]]; simpl in Hk; try discriminate. injection Hk as <-.
      rewrite E. constructor; cbn [NewSTR st_tree st_body st_ad s_epoch s_pepoch s_hash s_sig]; auto.
      + rewrite Nn. exact Cl.
      + rewrite Nn, Hh. rewrite <- (fresh_strip _ (t_root (recomputeHash t))), St, fresh_strip. reflexivity.
    - intros k s s' H1 H2. destruct k as [|k]; simpl in H2; [discriminate|destruct k; discriminate].
    - exists 0. split; [lia|]. split; [reflexivity|]. split; [|auto]. intro e. rewrite (Nat.leb_compare 0 e). simpl.
      destruct e; [reflexivity|]. simpl. destruct e; reflexivity.
    - unfold grow. cbn [length]. destruct (Nat.ltb_spec 0 len) as [Z|Z]; [lia|].
      destruct (Nat.eqb_spec len 0); lia.
  Qed.

  Lemma str_ok_ext nonce ops ops' k s : k <= updates ops -> str_ok nonce ops k s -> str_ok nonce (ops ++ ops') k s.
  Proof.
    intros L []. constructor; auto.
    - rewrite upto_app; auto.
    - rewrite upto_app; auto. lia.
  Qed.

  Lemma set_pad_inv p ops hist r key value :
    pad_inv p ops hist ->
    exists p', pad_step ser p (PSet r key value) = Ok (p', []) /\
      pad_inv p' (ops ++ [PSet r key value]) hist /\
      pd_snap p' = pd_snap p /\ pd_latest p' = pd_latest p /\ pd_vrf p' = pd_vrf p /\
      (r = None -> p' = p).
  Proof.
    intros I. destruct I. cbn [pad_step]. unfold PAD_Set, Index. rewrite pi_vrf0.
    destruct (set_inv 32 (pd_tree p) _ r (idx_of vk key) key value pi_tree0) as (o & E & H).
    { apply ok_vrf_len. exact OK. }
    unfold idx_of in E. rewrite E. cbn [bind]. unfold option_map.
    assert (U : updates (ops ++ [PSet r key value]) = updates ops) by (rewrite updates_app; simpl; lia).
    assert (AD : ad_after ad0 (ops ++ [PSet r key value]) = ad_after ad0 ops).
    { unfold ad_after. rewrite fold_left_app. reflexivity. }
    assert (HS : forall k s, nth_error hist k = Some s -> str_ok (t_nonce (pd_tree p)) (ops ++ [PSet r key value]) k s).
    { intros k s Hk. apply str_ok_ext; auto. apply nth_error_lt in Hk. lia. }
    destruct o as [t'|].
    - destruct H as (_ & Nn & I'). eexists. split; [reflexivity|]. split; [|repeat split; auto].
      + constructor; cbn [pd_sign pd_vrf pd_tree pd_snap pd_loaded pd_cap pd_latest pd_ad]; rewrite ?U, ?Nn, ?AD; auto.
        rewrite tops_app, last_set_app. exact I'.
      + intros ->. exfalso. clear -E. unfold Set_ in E. simpl in E. discriminate.
    - subst r. eexists. split; [reflexivity|]. split; [|repeat split; auto].
      constructor; rewrite ?U, ?AD; auto. rewrite tops_app, last_set_app. exact pi_tree0.
  Qed.

  Lemma fold_del_get (es : list N) (e : N) : forall (m : list (N * SignedTreeRoot A)),
    map_get N.eqb e (fold_left (fun s e => map_del N.eqb e s) es m) =
    if existsb (N.eqb e) es then None else map_get N.eqb e m.
  Proof.
    induction es as [|a es IH]; intro m; simpl; auto. rewrite IH.
    destruct (N.eqb_spec e a) as [->|N]; simpl.
    - rewrite (map_get_del_same N.eqb). destruct (existsb _ _); reflexivity.
    - rewrite (map_get_del_other _ N_eqb_spec) by auto. reflexivity.
  Qed.

  Lemma existsb_seq e lo n : existsb (N.eqb (N.of_nat e)) (map N.of_nat (seq lo n)) = (Nat.leb lo e && Nat.ltb e (lo + n))%bool.
  Proof.
    revert lo; induction n; intro lo; cbn [seq map existsb].
    - destruct (Nat.leb_spec lo e), (Nat.ltb_spec e (lo + 0)); cbn [andb]; auto; lia.
    - rewrite IHn. destruct (N.eqb_spec (N.of_nat e) (N.of_nat lo)) as [E|E].
      + apply Nat2N.inj in E. subst e. destruct (Nat.leb_spec lo lo), (Nat.ltb_spec lo (lo + S n)); cbn [andb orb]; auto; lia.
      + assert (e <> lo) by congruence.
        destruct (Nat.leb_spec (S lo) e), (Nat.leb_spec lo e), (Nat.ltb_spec e (S lo + n)), (Nat.ltb_spec e (lo + S n)); cbn [andb orb]; auto; lia.
  Qed.

  Lemma evict_spec p ops hist : pad_inv p ops hist ->
    exists lo', lo' <= updates ops /\ snd (evict p) = map N.of_nat (seq lo' (S (updates ops) - lo')) /\
      (forall e, map_get N.eqb (N.of_nat e) (fst (evict p)) = if Nat.leb lo' e then nth_error hist e else None) /\
      (forall e, pd_loaded p <> [] -> map_get N.eqb e (pd_snap p) = None -> map_get N.eqb e (fst (evict p)) = None) /\
      (length (snd (evict p)) < pd_cap p \/ length (snd (evict p)) = 1 /\ pd_cap p = 1) /\
      (lo' = 0 \/ pd_cap p / 2 <= length (snd (evict p))).
  Proof.
    intros []. destruct pi_loaded0 as (lo & L & E & G & LO). unfold evict.
    destruct (Nat.eqb_spec (length (pd_loaded p)) (pd_cap p)) as [F|F]; cbn [fst snd].
    - assert (LL : length (pd_loaded p) = S (updates ops) - lo) by (rewrite E, map_length, seq_length; reflexivity).
      set (n := pd_cap p / 2).
      assert (Hn : 2 * n <= pd_cap p /\ pd_cap p < 2 * n + 2).
      { unfold n. pose proof (Nat.div_mod (pd_cap p) 2 ltac:(lia)).
        pose proof (Nat.mod_upper_bound (pd_cap p) 2 ltac:(lia)). lia. }
      exists (lo + n). split; [lia|]. split; [|split; [|split; [|split]]].
      + rewrite E, skipn_map. f_equal.
        replace (S (updates ops) - lo) with (n + (S (updates ops) - (lo + n))) by lia.
        rewrite seq_app, skipn_app, seq_length, Nat.sub_diag, skipn_all2 by (rewrite seq_length; lia). reflexivity.
      + intro e. rewrite fold_del_get, G, E, firstn_map.
        assert (FS : firstn n (seq lo (S (updates ops) - lo)) = seq lo n).
        { replace (S (updates ops) - lo) with (n + (S (updates ops) - (lo + n))) by lia.
          rewrite seq_app, firstn_app, seq_length, Nat.sub_diag, firstn_all2 by (rewrite seq_length; lia).
          simpl. apply app_nil_r. }
        rewrite FS, existsb_seq.
        destruct (Nat.leb_spec lo e), (Nat.ltb_spec e (lo + n)), (Nat.leb_spec (lo + n) e); simpl; auto; lia.
      + intros e _ He. rewrite fold_del_get, He. destruct (existsb _ _); reflexivity.
      + rewrite skipn_length. lia.
      + rewrite skipn_length. fold n. lia.
    - exists lo. split; auto. split; auto. split; auto. split; auto. lia.
  Qed.

  Lemma update_pad_inv p ops hist ad :
    pad_inv p ops hist -> (N.of_nat (S (updates ops)) < two64)%N ->
    pad_inv (Update ser p ad) (ops ++ [PUpdate ad]) (hist ++ [pd_latest (Update ser p ad)]).
  Proof.
    intros I B. pose proof (evict_spec p ops hist I) as (lo & L & E & G & _ & LC & LO). destruct I.
    unfold Update. destruct (evict p) as [snap loaded]. cbn [fst snd] in *.
    unfold signTreeRoot. cbn [fst snd].
    pose proof (pi_hist0 _ _ pi_latest0) as SO.
    assert (EP : add64 (s_epoch (st_body (pd_latest p))) 1 = N.of_nat (S (updates ops))).
    { rewrite (so_epoch _ _ _ _ SO). unfold add64. rewrite N.mod_small; lia. }
    rewrite EP.
    destruct (rehash_inv 32 _ _ pi_tree0) as (I' & Nn & Hh & Cl & St).
    assert (EC : Clone (recomputeHash (pd_tree p)) = recomputeHash (pd_tree p)).
    { apply (clone_fresh (t_nonce (pd_tree p))); auto. }
    rewrite EC.
    set (str := NewSTR ser (pd_sign p) (pd_ad p) (recomputeHash (pd_tree p)) (N.of_nat (S (updates ops)))
       (Digest [s_sig (st_body (pd_latest p))])).
    cbn [pd_latest].
    assert (U : updates (ops ++ [PUpdate ad]) = S (updates ops)) by (rewrite updates_app; simpl; lia).
    assert (LL : length loaded = S (updates ops) - lo) by (rewrite E, map_length, seq_length; reflexivity).
    assert (TE : last_set (tops vk (ops ++ [PUpdate ad])) = last_set (tops vk ops)).
    { rewrite tops_app, last_set_app. reflexivity. }
    constructor; cbn [pd_sign pd_vrf pd_tree pd_snap pd_loaded pd_cap pd_latest pd_ad]; rewrite ?U; auto.
    - rewrite Nn. auto.
    - rewrite TE. exact I'.
    - rewrite app_length, pi_len0. simpl. lia.
    - intros k s Hk. destruct (Nat.lt_ge_cases k (S (updates ops))) as [Lt|Ge].
      + rewrite nth_error_app1 in Hk by lia. rewrite Nn. apply str_ok_ext; auto. lia.
      + rewrite nth_error_app2 in Hk by lia. rewrite pi_len0 in Hk.
        destruct (k - S (updates ops)) as [|z] eqn:Z; simpl in Hk; [|destruct z; discriminate].
        injection Hk as <-. assert (k = S (updates ops)) by lia. subst k.
        constructor; unfold str, NewSTR; cbn [st_tree st_body st_ad s_epoch s_pepoch s_hash s_sig s_phash].
        * reflexivity.
        * destruct (N.eqb_spec (N.of_nat (S (updates ops))) 0); lia.
        * rewrite upto_last, TE. exact I'.
        * reflexivity.
        * rewrite Nn. exact Cl.
        * rewrite Nn, Hh. rewrite <- (fresh_strip _ (t_root (recomputeHash (pd_tree p)))), St, fresh_strip. reflexivity.
        * reflexivity.
        * rewrite pi_sign0. reflexivity.
        * rewrite pi_ad0. replace (S (updates ops) - 1) with (updates ops) by lia.
          clear. unfold ad_after. rewrite upto_app by lia.
          assert (G : forall (a : A) (l : list (pad_op A)),
            fold_left (fun a op => match op with PUpdate (Some a') => a' | _ => a end) (upto (updates l) l) a =
            fold_left (fun a op => match op with PUpdate (Some a') => a' | _ => a end) l a).
          { intros a l. revert a. induction l as [|op l IH]; intro a; [reflexivity|].
            destruct op as [r k v|o]; cbn [updates].
            - assert (Z : forall n, fold_left (fun a op => match op with PUpdate (Some a') => a' | _ => a end) (upto n (PSet r k v :: l)) a =
                 fold_left (fun a op => match op with PUpdate (Some a') => a' | _ => a end) (upto n l) a).
              { intro n. destruct n; [destruct l; reflexivity|reflexivity]. }
              rewrite Z, IH. reflexivity.
            - cbn [upto fold_left]. apply IH. }
          symmetry. apply G.
    - intros k s s' H1 H2. destruct (Nat.lt_ge_cases (S k) (S (updates ops))) as [Lt|Ge].
      + rewrite nth_error_app1 in H1, H2 by lia. eauto.
      + assert (k < length (hist ++ [str])) by (apply nth_error_lt in H1; auto).
        pose proof (nth_error_lt _ _ _ H2) as L2. rewrite app_length in L2. simpl in L2.
        assert (k = updates ops) by lia. subst k.
        rewrite nth_error_app1 in H1 by lia. rewrite pi_latest0 in H1. injection H1 as <-.
        rewrite nth_error_app2 in H2 by lia. rewrite pi_len0, Nat.sub_diag in H2. simpl in H2. injection H2 as <-. reflexivity.
    - rewrite nth_error_app2 by lia. rewrite pi_len0, Nat.sub_diag. reflexivity.
    - unfold ad_after. rewrite fold_left_app. simpl. destruct ad; auto.
    - exists lo. split; [lia|]. split; [|split].
      + rewrite E. replace (S (S (updates ops)) - lo) with ((S (updates ops) - lo) + 1) by lia.
        rewrite seq_app, map_app. replace (lo + (S (updates ops) - lo)) with (S (updates ops)) by lia. reflexivity.
      + intro e. destruct (Nat.eq_dec e (S (updates ops))) as [->|Ne].
        * rewrite (map_get_set_same _ N_eqb_spec). destruct (Nat.leb_spec lo (S (updates ops))); [|lia].
          rewrite nth_error_app2 by lia. rewrite pi_len0, Nat.sub_diag. reflexivity.
        * rewrite (map_get_set_other _ N_eqb_spec) by lia. rewrite G.
          destruct (Nat.leb_spec lo e); auto. destruct (Nat.lt_ge_cases e (S (updates ops))).
          -- rewrite nth_error_app1 by lia. reflexivity.
          -- rewrite !(proj2 (nth_error_None _ _)); auto; rewrite ?app_length; simpl; lia.
      + rewrite app_length. cbn [length]. unfold grow. destruct LO as [->|LO]; [auto|right].
        destruct (Nat.ltb_spec (length loaded) (pd_cap p)); [lia|].
        destruct LC as [LC|(LC1 & LC2)]; [lia|]. rewrite LC1, LC2. cbv. lia.
    - rewrite app_length. cbn [length]. unfold grow. destruct (Nat.ltb_spec (length loaded) (pd_cap p)); [lia|].
      destruct (Nat.eqb_spec (pd_cap p) 0); lia.
  Qed.

  Lemma run_pad_inv ops' : forall p ops hist,
    pad_inv p ops hist -> (N.of_nat (updates (ops ++ ops')) < two64)%N ->
    exists p' issued, pad_run ser p ops' = Ok (p', issued) /\ pad_inv p' (ops ++ ops') (hist ++ issued).
  Proof.
    induction ops' as [|op ops' IH]; intros p ops hist I B.
    - exists p, []. rewrite !app_nil_r. auto.
    - assert (EQ : ops ++ op :: ops' = (ops ++ [op]) ++ ops') by (rewrite <- app_assoc; reflexivity).
      cbn [pad_run]. destruct op as [r key value|ad].
      + destruct (set_pad_inv p ops hist r key value I) as (p1 & E & I1 & _).
        rewrite E. cbn [bind]. rewrite EQ in *.
        destruct (IH p1 _ hist I1 B) as (p' & iss & E' & I'). exists p', iss. rewrite E'. split; [reflexivity|exact I'].
      + cbn [pad_step bind]. rewrite EQ in *.
        assert (I1 : pad_inv (Update ser p ad) (ops ++ [PUpdate ad]) (hist ++ [pd_latest (Update ser p ad)])).
        { apply update_pad_inv; auto. rewrite !updates_app in B. simpl in B. lia. }
        destruct (IH _ _ _ I1 B) as (p' & iss & E' & I'). exists p', (pd_latest (Update ser p ad) :: iss).
        rewrite E'. rewrite <- (app_assoc hist) in I'. split; [reflexivity|exact I'].
  Qed.

  Lemma built_pad_inv r1 r2 ops p hist :
    pad_built ser ad0 sk vk len r1 r2 ops p hist -> (N.of_nat (updates ops) < two64)%N -> pad_inv p ops hist.
  Proof.
    intros (p0 & iss & N & R & ->) B.
    destruct (run_pad_inv ops p0 [] _ (new_pad_inv _ _ _ N) B) as (p' & iss' & R' & I').
    rewrite R in R'. injection R' as <- <-. exact I'.
  Qed.
End Facts.
