(** Lemmas behind Prop_Auditor.v and Prop_Client.v. *)
From Coq Require Import List NArith ZArith Lia Bool Arith.
From Verif Require Import Base Utils Crypto Tree TreeFacts STR PAD PADSpec Protocol Directory DirSpec DirMain Auditor AudSpec.
Import ListNotations.

Lemma body_eqb_eq a b : body_eqb a b = true <-> a = b.
Proof.
  destruct a, b. unfold body_eqb. simpl. rewrite !andb_true_iff, !beq_eq, !N.eqb_eq. split.
  - intros ((((-> & ->) & ->) & ->) & ->). reflexivity.
  - intro H. injection H as -> -> -> -> ->. auto.
Qed.
Lemma pol_eqb_eq a b : pol_eqb a b = true <-> a = b.
Proof.
  destruct a, b. unfold pol_eqb. simpl. rewrite !andb_true_iff, !beq_eq, !N.eqb_eq. split.
  - intros (((-> & ->) & ->) & ->). reflexivity.
  - intro H. injection H as -> -> -> ->. auto.
Qed.
Lemma opt_eqb_eq {A} (f : A -> A -> bool) a b : (forall x y, f x y = true <-> x = y) ->
  opt_eqb f a b = true <-> a = b.
Proof.
  intro H. destruct a, b; simpl; try (split; [discriminate|discriminate]).
  - rewrite H. split; congruence.
  - split; auto.
Qed.
Lemma dir_eqb_eq a b : dir_eqb a b = true <-> a = b.
Proof.
  destruct a, b. unfold dir_eqb. simpl. rewrite andb_true_iff, !opt_eqb_eq by (apply body_eqb_eq || apply pol_eqb_eq).
  split; [intros (-> & ->); reflexivity|]. intro H. injection H as -> ->. auto.
Qed.
Lemma add64_neq v : add64 v 1 <> v.
Proof.
  unfold add64, two64. destruct (N.lt_ge_cases v (2 ^ 64)).
  - destruct (N.eq_dec v (2 ^ 64 - 1)) as [->|N]; [cbv; discriminate|]. rewrite N.mod_small by lia. lia.
  - pose proof (N.mod_lt (v + 1) (2 ^ 64) ltac:(lia)). lia.
Qed.

Section Facts.
  Context {C : Crypto}.

  Lemma consistency_ok a prev str :
    verifySTRConsistency a (Some prev) str = Ok None <-> signed_by (au_key a) str /\ extends str prev.
  Proof.
    unfold verifySTRConsistency, signed_by, extends, str_sig, Aud_Verify.
    destruct (DirSTR_Serialize str) as [m|] eqn:E; cbn [bind].
    2:{ split; [discriminate|]. intros ((b & bs & _ & X & _) & _). discriminate. }
    destruct (d_body str) as [b|] eqn:B; cbn [bind].
    2:{ split; [discriminate|]. intros ((b & bs & X & _) & _). discriminate. }
    destruct (sign_verify (au_key a) m (s_sig b)) eqn:V; cbn [negb].
    - cbn [deref bind]. split.
      + intro H. split; [exists b, m; auto|].
        destruct (DirSTR_VerifyHashChain str prev) as [[|]|]; cbn [bind] in H; congruence.
      + intros (_ & ->). reflexivity.
    - split; [discriminate|]. intros ((b' & bs & X1 & X2 & X3) & _). injection X1 as <-. injection X2 as <-. congruence.
  Qed.
  Lemma consistency_err a prev str e : verifySTRConsistency a prev str = Ok (Some e) -> e = CheckBadSignature \/ e = CheckBadSTR.
  Proof.
    unfold verifySTRConsistency. destruct (DirSTR_Serialize str); cbn [bind]; [|discriminate].
    destruct (str_sig str); cbn [bind]; [|discriminate].
    destruct (negb _); [intro H; injection H as <-; auto|].
    destruct prev; cbn [deref bind]; [|discriminate].
    destruct (DirSTR_VerifyHashChain str d) as [[|]|]; cbn [bind]; try discriminate. intro H; injection H as <-; auto.
  Qed.

  Lemma range_ok a : forall strs prev,
    VerifySTRRange a (Some prev) strs = Ok None <-> exists l, strs = map Some l /\ follows (au_key a) prev l.
  Proof.
    induction strs as [|[s|] strs IH]; intro prev; cbn [VerifySTRRange].
    - split; [|reflexivity]. intros _. exists []. split; [reflexivity|exact I].
    - destruct (verifySTRConsistency a (Some prev) s) as [[e|]|] eqn:E; cbn [bind].
      + split; [discriminate|]. intros ([|s' l] & X & F); [discriminate|]. injection X as <- _.
        destruct F as (F1 & F2 & _). rewrite (proj2 (consistency_ok a prev s)) in E by auto. discriminate.
      + rewrite IH. apply consistency_ok in E. destruct E as (E1 & E2). split.
        * intros (l & -> & F). exists (s :: l). split; [reflexivity|]. simpl. auto.
        * intros ([|s' l] & X & F); [discriminate|]. injection X as <- ->. exists l. split; [reflexivity|]. apply F.
      + split; [discriminate|]. intros ([|s' l] & X & F); [discriminate|]. injection X as <- _.
        destruct F as (F1 & F2 & _). rewrite (proj2 (consistency_ok a prev s)) in E by auto. discriminate.
    - split; [discriminate|]. intros ([|s' l] & X & _); discriminate.
  Qed.

  Lemma extends_epoch s prev : extends s prev -> exists b b', d_body s = Some b /\ d_body prev = Some b' /\
    s_epoch b = add64 (s_epoch b') 1 /\ s_pepoch b = s_epoch b' /\ s_phash b = Digest [s_sig b'].
  Proof.
    unfold extends, DirSTR_VerifyHashChain. destruct (d_body s) as [b|]; [|discriminate].
    destruct (d_body prev) as [b'|]; [|discriminate]. intro H. injection H as H. unfold VerifyHashChain in H.
    rewrite !andb_true_iff, !N.eqb_eq, beq_eq in H. exists b, b'. intuition.
  Qed.

  Lemma check_ok a str :
    CheckSTRAgainstVerified a str = Ok None <->
    exists s, str = Some s /\ d_body s <> None /\
      (s = au_str a \/ (signed_by (au_key a) s /\ extends s (au_str a))).
  Proof.
    unfold CheckSTRAgainstVerified. destruct str as [s|]; cbn [deref bind].
    2:{ split; [discriminate|]. intros (s & X & _). discriminate. }
    unfold str_epoch. destruct (d_body s) as [b|] eqn:B; cbn [bind].
    2:{ split; [discriminate|]. intros (s' & X & NB & _). injection X as <-. congruence. }
    destruct (d_body (au_str a)) as [v|] eqn:BV; cbn [bind].
    2:{ split; [discriminate|]. intros (s' & X & NB & [E|(_ & E)]).
        - injection X as <-. rewrite E in B. congruence.
        - apply extends_epoch in E. destruct E as (? & ? & _ & E & _). congruence. }
    destruct (N.eqb_spec (s_epoch b) (s_epoch v)) as [Q|Q].
    - split.
      + intro H. exists s. split; auto. split; [congruence|]. left.
        destruct (dir_eqb (au_str a) s) eqn:D; [|discriminate]. apply dir_eqb_eq in D. auto.
      + intros (s' & X & _ & [E|(_ & E)]); injection X as <-.
        * rewrite (proj2 (dir_eqb_eq (au_str a) s) (eq_sym E)). reflexivity.
        * exfalso. apply extends_epoch in E. destruct E as (b1 & b2 & X1 & X2 & E & _).
          rewrite B in X1. rewrite BV in X2. injection X1 as <-. injection X2 as <-.
          rewrite Q in E. apply (add64_neq (s_epoch v)). auto.
    - destruct (N.eqb_spec (s_epoch b) (add64 (s_epoch v) 1)) as [Q'|Q'].
      + rewrite consistency_ok. split.
        * intros (H1 & H2). exists s. split; auto. split; [congruence|]. auto.
        * intros (s' & X & _ & [E|E]); injection X as <-; auto. exfalso. subst s. rewrite B in BV. injection BV as <-. auto.
      + split; [discriminate|]. intros (s' & X & _ & [E|(_ & E)]); injection X as <-.
        * exfalso. subst s. rewrite B in BV. injection BV as <-. auto.
        * exfalso. apply extends_epoch in E. destruct E as (b1 & b2 & X1 & X2 & E & _).
          rewrite B in X1. rewrite BV in X2. injection X1 as <-. injection X2 as <-. auto.
  Qed.

  Lemma audit_dir_ok a strs :
    AuditDirectory a strs = Ok None <->
    exists s l, strs = map Some (s :: l) /\ d_body s <> None /\
      (s = au_str a \/ (signed_by (au_key a) s /\ extends s (au_str a))) /\ follows (au_key a) s l.
  Proof.
    unfold AuditDirectory. destruct strs as [|str rest].
    { split; [discriminate|]. intros (s & l & X & _). discriminate. }
    destruct (CheckSTRAgainstVerified a str) as [[e|]|] eqn:K; cbn [bind].
    - split; [discriminate|]. intros (s & l & X & NB & D & F). injection X as -> ->.
      rewrite (proj2 (check_ok a (Some s))) in K by eauto. discriminate.
    - apply check_ok in K. destruct K as (s & -> & NB & D). rewrite range_ok. split.
      + intros (l & -> & F). exists s, l. auto.
      + intros (s' & l & X & _ & _ & F). injection X as <- ->. eauto.
    - split; [discriminate|]. intros (s & l & X & NB & D & F). injection X as -> ->.
      rewrite (proj2 (check_ok a (Some s))) in K by eauto. discriminate.
  Qed.

  (** *** Chains with their epochs *)
  Lemma last_cons {A} (l : list A) : forall s d, last (s :: l) d = last l s.
  Proof.
    induction l as [|x l IH]; intros s d; [reflexivity|].
    change (last (s :: x :: l) d) with (last (x :: l) d). rewrite !IH. reflexivity.
  Qed.

  Lemma last_app_cons {A} (l : list A) : forall y xs d, last (l ++ y :: xs) d = last xs y.
  Proof.
    induction l as [|z l IH]; intros y xs d; [apply last_cons|].
    cbn [app]. rewrite last_cons. apply IH.
  Qed.

  Lemma follows_app pk : forall l1 prev l2,
    follows pk prev (l1 ++ l2) <-> follows pk prev l1 /\ follows pk (last l1 prev) l2.
  Proof.
    induction l1 as [|s l1 IH]; intros prev l2; [simpl; tauto|].
    cbn [app follows]. rewrite IH, last_cons. tauto.
  Qed.

  (** Epoch [k] sits at position [k]. *)
  Definition numbered (chain : list DirSTR) : Prop :=
    forall k s, nth_error chain k = Some s -> epoch_of s = Some (N.of_nat k).
  Lemma follows_epochs pk : forall l prev e, epoch_of prev = Some e -> (e + N.of_nat (length l) < 2 ^ 64)%N -> follows pk prev l ->
    forall k s, nth_error l k = Some s -> epoch_of s = Some (e + 1 + N.of_nat k)%N.
  Proof.
    induction l as [|x l IH]; intros prev e E B F k s H; [destruct k; discriminate|].
    destruct F as (_ & X & F). apply extends_epoch in X. destruct X as (b & b' & B1 & B2 & Q & _).
    assert (Ex : epoch_of x = Some (e + 1)%N).
    { unfold epoch_of in *. rewrite B1. rewrite B2 in E. simpl in *. injection E as E. rewrite Q, E.
      unfold add64, two64. rewrite N.mod_small; auto. cbn [length] in B. lia. }
    destruct k; simpl in H.
    - injection H as <-. rewrite Ex. f_equal. lia.
    - rewrite (IH x (e + 1)%N Ex ltac:(cbn [length] in B; lia) F k s H). f_equal. lia.
  Qed.
  Lemma numbered_chain pk s0 l : epoch_of s0 = Some 0%N -> (N.of_nat (length l) < 2 ^ 64)%N -> follows pk s0 l -> numbered (s0 :: l).
  Proof.
    intros E B F [|k] s H; simpl in H; [injection H as <-; auto|].
    rewrite (follows_epochs pk l s0 0%N E ltac:(lia) F k s H). f_equal. lia.
  Qed.

  (** *** Histories *)
  Record hist_inv (h : history) (id : bytes) (s0 : DirSTR) (l : list DirSTR) : Prop := {
    hi_id : exists b, d_body s0 = Some b /\ s_epoch b = 0%N /\ Digest [s_sig b] = id;
    hi_fol : follows (au_key (h_aud h)) s0 l;
    hi_last : au_str (h_aud h) = last l s0;
    hi_snap : (N.of_nat (length l) < 2 ^ 64)%N ->
       forall e, map_get N.eqb e (h_snaps h) = nth_error (s0 :: l) (N.to_nat e)
  }.

  Lemma insert_spec l : forall h, Forall (fun s => d_body s <> None) l ->
    exists h', insertRange h (map Some l) = Ok h' /\ h_addr h' = h_addr h /\ au_key (h_aud h') = au_key (h_aud h) /\
      au_str (h_aud h') = last l (au_str (h_aud h)) /\
      h_snaps h' = fold_left (fun m s => match epoch_of s with Some e => map_set N.eqb e s m | None => m end) l (h_snaps h).
  Proof.
    induction l as [|s l IH]; intros h F; cbn [map insertRange].
    - exists h. auto.
    - inversion F as [|? ? NB F']; subst. unfold updateVerifiedSTR. cbn [deref bind]. unfold str_epoch.
      destruct (d_body s) as [b|] eqn:B; [|congruence]. cbn [bind].
      destruct (IH (mkHist (Aud_Update (h_aud h) s) (h_addr h) (map_set N.eqb (s_epoch b) s (h_snaps h))) F') as (h' & E & A1 & A2 & A3 & A4).
      exists h'. split; auto. split; auto. split; auto. split.
      + rewrite A3, last_cons. reflexivity.
      + rewrite A4. cbn [fold_left h_snaps]. unfold epoch_of. rewrite B. reflexivity.
  Qed.

  Lemma snaps_get l : forall m k chain,
    (forall i s, nth_error l i = Some s -> epoch_of s = Some (N.of_nat (k + i)) /\ nth_error chain (k + i) = Some s) ->
    forall e, map_get N.eqb e (fold_left (fun m s => match epoch_of s with Some e => map_set N.eqb e s m | None => m end) l m) =
      if (k <=? N.to_nat e) && (N.to_nat e <? k + length l) then nth_error chain (N.to_nat e) else map_get N.eqb e m.
  Proof.
    induction l as [|s l IH]; intros m k chain H e.
    - simpl. destruct (Nat.leb_spec k (N.to_nat e)), (Nat.ltb_spec (N.to_nat e) (k + 0)); auto. lia.
    - cbn [fold_left]. destruct (H 0 s eq_refl) as (E & N). rewrite Nat.add_0_r in *. rewrite E.
      rewrite (IH _ (S k) chain).
      + destruct (Nat.eq_dec (N.to_nat e) k) as [Q|Q].
        * replace (S k <=? N.to_nat e) with false by (symmetry; apply Nat.leb_gt; lia). cbn [andb].
          replace (k <=? N.to_nat e) with true by (symmetry; apply Nat.leb_le; lia).
          replace (N.to_nat e <? k + length (s :: l)) with true by (symmetry; apply Nat.ltb_lt; cbn [length]; lia). cbn [andb].
          replace e with (N.of_nat k) by lia. rewrite map_get_set_same by (intros; apply N.eqb_eq). rewrite Nat2N.id. rewrite ?(proj2 (Nat.ltb_lt k (k + S (length l)))) by lia. symmetry; exact N.
        * rewrite map_get_set_other by (try (intros; apply N.eqb_eq); lia).
          destruct (Nat.leb_spec (S k) (N.to_nat e)), (Nat.leb_spec k (N.to_nat e)); try lia; cbn [length]; cbn [andb]; auto.
          rewrite <- plus_n_Sm. reflexivity.
      + intros i x Hi. replace (S k + i) with (k + S i) by lia. apply (H (S i) x Hi).
  Qed.

  Lemma follows_body pk : forall l prev, follows pk prev l -> Forall (fun s => d_body s <> None) l.
  Proof.
    induction l as [|s l IH]; intros prev F; constructor.
    - destruct F as (_ & X & _). apply extends_epoch in X. destruct X as (b & _ & X & _). congruence.
    - destruct F as (_ & _ & F). eapply IH; eauto.
  Qed.

  Lemma init_inv addr pk s0 l h0 h : follows pk s0 l ->
    epoch_of s0 = Some 0%N ->
    newDirectoryHistory addr pk s0 = Ok h0 -> insertRange h0 (map Some l) = Ok h ->
    exists sg, str_sig s0 = Ok sg /\ hist_inv h (Digest [sg]) s0 l.
  Proof.
    intros F E0 N R. unfold newDirectoryHistory, updateVerifiedSTR in N. cbn [deref bind] in N.
    unfold epoch_of in E0. unfold str_epoch in N. unfold str_sig. destruct (d_body s0) as [b|] eqn:B; [|discriminate].
    cbn [bind] in N. simpl in E0. injection E0 as E0. injection N as <-. rewrite E0 in R. 
    destruct (insert_spec l (mkHist (Aud_Update (mkAud pk s0) s0) addr (map_set N.eqb 0%N s0 [])) (follows_body _ _ _ F)) as (h' & E & A1 & A2 & A3 & A4).
    rewrite E in R. injection R as <-. exists (s_sig b). split; auto. constructor.
    - exists b. auto.
    - rewrite A2. exact F.
    - rewrite A3. reflexivity.
    - intros Bd e. rewrite A4. cbn [h_snaps].
      assert (E00 : epoch_of s0 = Some 0%N) by (unfold epoch_of; rewrite B; simpl; congruence).
      pose proof (numbered_chain pk s0 l E00 Bd F) as NC.
      rewrite (snaps_get l _ 1 (s0 :: l)).
      + destruct (N.to_nat e) as [|n] eqn:Q.
        * replace e with 0%N by lia. reflexivity.
        * destruct (Nat.leb_spec 1 (S n)); [|lia]. cbn [andb]. destruct (Nat.ltb_spec (S n) (1 + length l)); auto.
          rewrite map_get_set_other by (try (intros; apply N.eqb_eq); lia). simpl map_get.
          symmetry. apply nth_error_None. cbn [length]. lia.
      + intros i s Hi. split; [|exact Hi]. apply (NC (S i)). exact Hi.
  Qed.

  Lemma audit_inv h id s0 l msg h' err : hist_inv h id s0 l -> Audit h msg = Ok (h', err) ->
    match err with
    | Some _ => h' = h
    | None => exists x xs l', r_df msg = Some (DHistory (Some (map Some (x :: xs)))) /\
        hist_inv h' id s0 (l ++ l') /\ l' = (if dir_eqb x (last l s0) then xs else x :: xs) /\
        au_key (h_aud h') = au_key (h_aud h)
    end.
  Proof.
    intros HI A. unfold Audit in A. destruct (Validate msg) as [[e|]|]; cbn [bind] in A; [injection A as <- <-; reflexivity| |discriminate].
    destruct (r_df msg) as [[?|[strs|]]|]; try discriminate.
    destruct (AuditDirectory (h_aud h) strs) as [[e|]|] eqn:AD; cbn [bind] in A; [injection A as <- <-; reflexivity| |discriminate].
    destruct (insertRange h strs) as [hh|] eqn:R; cbn [bind] in A; [|discriminate]. injection A as <- <-.
    apply audit_dir_ok in AD. destruct AD as (x & xs & -> & NB & D & F). destruct HI as [(b0 & B0 & E0 & ID) HF HL HS].
    exists x, xs. rewrite HL in D.
    assert (FA : Forall (fun s => d_body s <> None) (x :: xs)) by (constructor; [auto|eapply follows_body; eauto]).
    destruct (insert_spec (x :: xs) h FA) as (h' & E & A1 & A2 & A3 & A4). rewrite E in R. injection R as <-.
    assert (E00 : epoch_of s0 = Some 0%N) by (unfold epoch_of; rewrite B0; simpl; congruence).
    destruct (dir_eqb x (last l s0)) eqn:Q.
    - apply dir_eqb_eq in Q. exists xs. split; auto. split; [|split; auto].
      assert (F' : follows (au_key (h_aud h)) s0 (l ++ xs)) by (apply follows_app; split; auto; rewrite <- Q; exact F).
      constructor.
      + exists b0. auto.
      + rewrite A2. exact F'.
      + rewrite A3, last_cons. destruct xs as [|y xs]; [rewrite app_nil_r; auto|].
        rewrite last_app_cons, last_cons. reflexivity.
      + intros Bd e. rewrite app_length in Bd. cbn [length] in Bd. rewrite A4.
        pose proof (numbered_chain _ s0 (l ++ xs) E00 ltac:(rewrite app_length; cbn [length]; lia) F') as NC.
        assert (LN : nth_error (s0 :: l ++ xs) (length l) = Some x).
        { rewrite Q. clear. destruct l as [|z l] using rev_ind; [reflexivity|].
          rewrite last_last, app_length. simpl length. rewrite Nat.add_1_r. cbn [nth_error].
          rewrite <- app_assoc. rewrite nth_error_app2 by lia. rewrite Nat.sub_diag. reflexivity. }
        rewrite (snaps_get (x :: xs) _ (length l) (s0 :: l ++ xs)).
        * cbn [length]. destruct (Nat.leb_spec (length l) (N.to_nat e)); cbn [andb].
          -- destruct (Nat.ltb_spec (N.to_nat e) (length l + S (length xs))); auto.
             rewrite HS by lia.
             rewrite (proj2 (nth_error_None (s0 :: l) _)), (proj2 (nth_error_None (s0 :: l ++ xs) _)); auto; cbn [length]; rewrite ?app_length; lia.
          -- rewrite HS by lia. rewrite app_comm_cons, nth_error_app1; auto. cbn [length]. lia.
        * intros i s Hi. destruct i; simpl in Hi.
          -- injection Hi as <-. rewrite Nat.add_0_r. split; auto.
          -- assert (N2 : nth_error (s0 :: l ++ xs) (length l + S i) = Some s).
             { replace (length l + S i) with (S (length l + i)) by lia. cbn [nth_error]. rewrite nth_error_app2 by lia.
               replace (length l + i - length l) with i by lia. exact Hi. }
             split; auto.
    - destruct D as [D|(D1 & D2)]; [apply dir_eqb_eq in D; congruence|].
      exists (x :: xs). split; auto. split; [|split; auto].
      assert (F' : follows (au_key (h_aud h)) s0 (l ++ x :: xs)) by (apply follows_app; split; auto; simpl; auto).
      constructor.
      + exists b0. auto.
      + rewrite A2. exact F'.
      + rewrite A3, last_cons, last_app_cons. reflexivity.
      + intros Bd e. rewrite app_length in Bd. cbn [length] in Bd. rewrite A4.
        pose proof (numbered_chain _ s0 (l ++ x :: xs) E00 ltac:(rewrite app_length; cbn [length]; lia) F') as NC.
        rewrite (snaps_get (x :: xs) _ (S (length l)) (s0 :: l ++ x :: xs)).
        * cbn [length]. destruct (Nat.leb_spec (S (length l)) (N.to_nat e)); cbn [andb].
          -- destruct (Nat.ltb_spec (N.to_nat e) (S (length l) + S (length xs))); auto.
             rewrite HS by lia.
             rewrite (proj2 (nth_error_None (s0 :: l) _)), (proj2 (nth_error_None (s0 :: l ++ x :: xs) _)); auto; cbn [length]; rewrite ?app_length; cbn [length]; lia.
          -- rewrite HS by lia. rewrite app_comm_cons, nth_error_app1 by (cbn [length]; lia). reflexivity.
        * intros i s Hi.
          assert (N2 : nth_error (s0 :: l ++ x :: xs) (S (length l) + i) = Some s).
          { replace (S (length l) + i) with (S (length l + i)) by lia. cbn [nth_error]. rewrite nth_error_app2 by lia.
            replace (length l + i - length l) with i by lia. exact Hi. }
          split; auto.
  Qed.

  (** The answer to a range request. *)
  Lemma observed_spec log id s0 l h : map_get beq id log = Some h -> hist_inv h id s0 l ->
    (N.of_nat (length l) < 2 ^ 64 - 1)%N -> serves log id (s0 :: l).
  Proof.
    intros M [(b0 & B0 & E0 & ID) HF HL HS] Bd a b. unfold GetObservedSTRs. rewrite M.
    assert (E00 : epoch_of s0 = Some 0%N) by (unfold epoch_of; rewrite B0; simpl; congruence).
    pose proof (numbered_chain _ s0 l E00 ltac:(lia) HF) as NC.
    assert (EL : str_epoch (au_str (h_aud h)) = Ok (N.of_nat (length l))).
    { rewrite HL. assert (LN : nth_error (s0 :: l) (length l) = Some (last l s0)).
      { clear. destruct l as [|z l] using rev_ind; [reflexivity|].
        rewrite last_last, app_length. simpl length. rewrite Nat.add_1_r. cbn [nth_error].
        rewrite nth_error_app2 by lia. rewrite Nat.sub_diag. reflexivity. }
      apply NC in LN. unfold epoch_of in LN. unfold str_epoch. destruct (d_body (last l s0)); [|discriminate].
      simpl in LN. congruence. }
    rewrite EL. cbn [bind length].
    destruct (Nat.ltb_spec b a), (Nat.leb_spec (S (length l)) b); simpl orb.
    1-3: (rewrite ?(proj2 (N.ltb_lt (N.of_nat (length l)) (N.of_nat b))) by lia;
          rewrite ?(proj2 (N.ltb_lt (N.of_nat b) (N.of_nat a))) by lia; rewrite ?orb_true_r; reflexivity).
    rewrite (proj2 (N.ltb_ge (N.of_nat (length l)) (N.of_nat b))), (proj2 (N.ltb_ge (N.of_nat b) (N.of_nat a))) by lia.
    simpl orb. cbv iota. rewrite epochs_ok by (unfold two64; lia). cbn [bind]. f_equal. f_equal.
    rewrite map_map. clear -HS H H0 Bd.
    assert (G : forall m a, a + m <= S (length l) -> map (fun x => map_get N.eqb (N.of_nat (a + x)) (h_snaps h)) (seq 0 m) =
       map Some (firstn m (skipn a (s0 :: l)))).
    { clear a b H H0. induction m as [|m IH]; intros a L; [reflexivity|].
      cbn [seq map]. rewrite HS by lia. rewrite Nat.add_0_r, Nat2N.id.
      destruct (nth_error (s0 :: l) a) as [s|] eqn:N; [|apply nth_error_None in N; cbn [length] in N; lia].
      assert (SK : skipn a (s0 :: l) = s :: skipn (S a) (s0 :: l)).
      { clear -N. revert N. generalize (s0 :: l). induction a as [|a IH]; intros [|y ys] N; try discriminate; [injection N as ->; reflexivity|].
        simpl in N. exact (IH ys N). }
      rewrite SK. cbn [firstn map]. f_equal. rewrite <- (IH (S a)) by lia.
      rewrite <- seq_shift, map_map. apply map_ext. intro i. do 2 f_equal. lia. }
    apply G. lia.
  Qed.
End Facts.

Section Log.
  Context {C : Crypto}.

  Definition log_inv (ops : list log_op) (l : AuditLog) : Prop :=
    forall id h, map_get beq id l = Some h -> exists s0 chain, hist_inv h id s0 chain /\
      S (length chain) <= received ops /\
      exists addr snaps, In (LInit addr (au_key (h_aud h)) (Some s0 :: snaps)) ops.
  Definition log_ext (n : nat) (l l' : AuditLog) : Prop :=
    forall id h s0 chain, map_get beq id l = Some h -> hist_inv h id s0 chain ->
      exists h' more, map_get beq id l' = Some h' /\ length more <= n /\ hist_inv h' id s0 (chain ++ more).

  Lemma received_app a b : received (a ++ b) = received a + received b.
  Proof. unfold received. rewrite map_app, list_sum_app. reflexivity. Qed.
  Lemma log_ext_refl n l : log_ext n l l.
  Proof. intros id h s0 chain M H. exists h, []. rewrite app_nil_r. split; auto. split; auto. cbn [length]. lia. Qed.

  Lemma log_step_inv ops l op l' : log_inv ops l -> good_init op -> log_step l op = Ok l' ->
    log_inv (ops ++ [op]) l' /\ log_ext (op_size op) l l'.
  Proof.
    intros LI G S.
    assert (K : log_inv (ops ++ [op]) l).
    { intros id h M. destruct (LI id h M) as (s0 & chain & H & L & addr & snaps & IN). exists s0, chain.
      split; auto. rewrite received_app. split; [lia|]. exists addr, snaps. apply in_app_iff. auto. }
    destruct op as [addr pk snaps|id msg]; cbn [log_step] in S.
    - destruct G as (s0 & rest & -> & F). unfold InitHistory in S. cbn [map deref bind] in S.
      destruct (str_epoch s0) as [e0|] eqn:E0; cbn [bind] in S; [|discriminate].
      destruct (N.eqb_spec e0 0) as [->|]; cbn [negb] in S.
      2:{ injection S as <-. split; [auto|apply log_ext_refl]. }
      destruct (ComputeDirectoryIdentity s0) as [id0|] eqn:CI; cbn [bind] in S; [|discriminate].
      destruct (map_get beq id0 l) eqn:M0.
      { injection S as <-. split; [auto|apply log_ext_refl]. }
      destruct (newDirectoryHistory addr pk s0) as [h0|] eqn:N0; cbn [bind] in S; [|discriminate].
      destruct (insertRange h0 (map Some rest)) as [h1|] eqn:R; cbn [bind] in S; [|discriminate]. injection S as <-.
      assert (EP : epoch_of s0 = Some 0%N).
      { unfold str_epoch in E0. unfold epoch_of. destruct (d_body s0); [|discriminate]. injection E0 as E0. simpl. congruence. }
      destruct (init_inv addr pk s0 rest h0 h1 F EP N0 R) as (sg & SG & HI).
      assert (ID : id0 = Digest [sg]).
      { unfold ComputeDirectoryIdentity in CI. rewrite E0 in CI. cbn [bind] in CI. rewrite N.eqb_refl, SG in CI. cbn [bind] in CI. congruence. }
      assert (PK : au_key (h_aud h1) = pk).
      { destruct (insert_spec rest h0 (follows_body _ _ _ F)) as (h' & E & A1 & A2 & _). rewrite R in E. injection E as <-.
        rewrite A2. unfold newDirectoryHistory, updateVerifiedSTR in N0. cbn [deref bind] in N0. rewrite E0 in N0. cbn [bind] in N0.
        injection N0 as <-. reflexivity. }
      split.
      + intros id h M. destruct (beq_spec id id0) as [->|NE].
        * rewrite map_get_set_same in M by apply beq_eq. injection M as <-. exists s0, rest. rewrite ID. split; auto. split.
          -- rewrite received_app. unfold received at 2. cbn [map list_sum fold_right op_size length]. rewrite map_length. lia.
          -- exists addr, (map Some rest). rewrite PK. apply in_app_iff. right. left. reflexivity.
        * rewrite map_get_set_other in M by (auto using beq_eq). auto.
      + intros id h s1 chain M H. assert (id <> id0) by congruence.
        exists h, []. rewrite app_nil_r. split; [|split; [cbn [length]; lia|auto]]. rewrite map_get_set_other by (auto using beq_eq). auto.
    - destruct (map_get beq id l) as [h|] eqn:M0.
      2:{ injection S as <-. split; [auto|apply log_ext_refl]. }
      destruct (Audit h msg) as [[h' err]|] eqn:A; cbn [bind] in S; [|discriminate]. injection S as <-.
      destruct (LI id h M0) as (s0 & chain & HI & L & addr & snaps & IN).
      assert (X : exists l', hist_inv h' id s0 (chain ++ l') /\ au_key (h_aud h') = au_key (h_aud h) /\ length l' <= op_size (LAudit id msg) /\
         forall s1 c1, hist_inv h id s1 c1 -> exists more, length more <= op_size (LAudit id msg) /\ hist_inv h' id s1 (c1 ++ more)).
      { destruct err as [e|].
        - pose proof (audit_inv _ _ _ _ _ _ _ HI A) as ->. exists []. rewrite app_nil_r. split; auto. split; auto. split; [simpl; lia|].
          intros. exists []. rewrite app_nil_r. split; auto. cbn [length]. lia.
        - pose proof (audit_inv _ _ _ _ _ _ _ HI A) as (x & xs & l' & D & HI' & E & AK). exists l'. split; auto. split; auto. split.
          + cbn [op_size]. rewrite D, map_length, E. destruct (dir_eqb x (last chain s0)); cbn [length]; lia.
          + intros s1 c1 H1. pose proof (audit_inv _ _ _ _ _ _ _ H1 A) as (x1 & xs1 & l1 & D1 & HI1 & E1 & _).
            exists l1. split; auto. cbn [op_size]. rewrite D1, map_length, E1. destruct (dir_eqb x1 (last c1 s1)); cbn [length]; lia. }
      destruct X as (l' & HI' & AK & LL & EX). split.
      + intros id' hh M. destruct (beq_spec id' id) as [->|NE].
        * rewrite map_get_set_same in M by apply beq_eq. injection M as <-. exists s0, (chain ++ l'). split; auto. split.
          -- rewrite received_app. unfold received at 2. cbn [map list_sum fold_right]. rewrite app_length. lia.
          -- exists addr, snaps. rewrite AK. apply in_app_iff. auto.
        * rewrite map_get_set_other in M by (auto using beq_eq). auto.
      + intros id' hh s1 c1 M H1. destruct (beq_spec id' id) as [->|NE].
        * rewrite M0 in M. injection M as <-. destruct (EX s1 c1 H1) as (more & LM & H'). exists h', more. split; auto.
          apply map_get_set_same, beq_eq.
        * exists hh, []. rewrite app_nil_r. split; [|split; [cbn [length]; lia|auto]]. rewrite map_get_set_other by (auto using beq_eq). auto.
  Qed.

  Lemma log_run_inv ops' : forall ops l l', log_inv ops l -> Forall good_init ops' -> log_run l ops' = Ok l' ->
    log_inv (ops ++ ops') l' /\ log_ext (received ops') l l'.
  Proof.
    induction ops' as [|op ops' IH]; intros ops l l' LI G R; cbn [log_run] in R.
    - injection R as <-. rewrite app_nil_r. split; [auto|apply log_ext_refl].
    - inversion G as [|? ? G1 G2]; subst. destruct (log_step l op) as [l1|] eqn:S; cbn [bind] in R; [|discriminate].
      destruct (log_step_inv ops l op l1 LI G1 S) as (L1 & E1).
      destruct (IH (ops ++ [op]) l1 l' L1 G2 R) as (L2 & E2). rewrite <- app_assoc in L2. split; auto.
      intros id h s0 chain M H. destruct (E1 id h s0 chain M H) as (h1 & m1 & M1 & LL1 & H1).
      destruct (E2 id h1 s0 _ M1 H1) as (h2 & m2 & M2 & LL2 & H2). exists h2, (m1 ++ m2). rewrite app_assoc, app_length.
      split; auto. split; auto. change (received (op :: ops')) with (op_size op + received ops'). lia.
  Qed.

  Lemma serves_fun l id c1 c2 : serves l id c1 -> serves l id c2 -> c1 = c2.
  Proof.
    intros S1 S2.
    assert (LE : forall c1 c2, serves l id c1 -> serves l id c2 -> length c1 <= length c2).
    { clear. intros c1 c2 S1 S2. destruct (Nat.le_gt_cases (length c1) (length c2)) as [|G]; auto. exfalso.
      pose proof (S1 (length c2) (length c2)) as A. rewrite (S2 (length c2) (length c2)) in A.
      rewrite Nat.ltb_irrefl, Nat.leb_refl in A. replace (length c1 <=? length c2) with false in A by (symmetry; apply Nat.leb_gt; lia).
      cbn [orb] in A. discriminate. }
    pose proof (LE _ _ S1 S2). pose proof (LE _ _ S2 S1). assert (L : length c1 = length c2) by lia.
    destruct c1 as [|x c1]; [destruct c2; [reflexivity|discriminate]|]. destruct c2 as [|y c2]; [discriminate|].
    pose proof (S1 0 (length c1)) as A. rewrite (S2 0 (length c1)) in A. cbn [length] in *.
    replace (S (length c1) <=? length c1) with false in A by (symmetry; apply Nat.leb_gt; lia).
    replace (S (length c2) <=? length c1) with false in A by (symmetry; apply Nat.leb_gt; lia).
    destruct (Nat.ltb_spec (length c1) 0); [lia|]. cbn [orb skipn] in A. rewrite Nat.sub_0_r in A.
    unfold NewSTRHistoryRange in A. remember (x :: c1) as X. remember (y :: c2) as Y. injection A as A.
    subst X Y. cbv iota in A. rewrite !firstn_all2 in A by lia.
    assert (INJ : forall a b : list DirSTR, map Some a = map Some b -> a = b).
    { induction a as [|? a IH]; intros [|? b] E; try discriminate; auto. simpl in E. injection E as -> E. f_equal. auto. }
    symmetry. apply INJ. exact A.
  Qed.
End Log.
