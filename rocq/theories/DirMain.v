(** Range requests and published STRs: lemmas behind Prop_Directory.v. *)
From Coq Require Import List NArith ZArith Lia Bool Arith.
From Verif Require Import Base Utils Crypto Tree TreeFacts TreeSpec TreeHist PathFacts SoundFacts TreeMain
  STR PAD PADSpec PADFacts PADMain Protocol Directory DirSpec DirFacts.
Import ListNotations.

Lemma mapM_nth {A B} (f : A -> result B) (P : nat -> B -> Prop) : forall l k,
  (forall i x, nth_error l i = Some x -> exists y, f x = Ok y /\ P (k + i) y) ->
  exists r, mapM f l = Ok r /\ length r = length l /\ forall i y, nth_error r i = Some y -> P (k + i) y.
Proof.
  induction l as [|a l IH]; intros k H.
  - exists []. split; [reflexivity|]. split; auto. intros [|i] y Hy; discriminate.
  - destruct (H 0 a eq_refl) as (y & Ey & Py).
    destruct (IH (S k)) as (r & Er & Lr & Pr).
    { intros i x Hx. replace (S k + i) with (k + S i) by lia. apply (H (S i) x Hx). }
    exists (y :: r). cbn [mapM]. rewrite Ey. cbn [bind]. rewrite Er. cbn [bind]. split; auto. split; [simpl; auto|].
    intros [|i] z Hz; simpl in Hz; [injection Hz as <-; exact Py|].
    replace (k + S i) with (S k + i) by lia. auto.
Qed.

Lemma mapM_panic {A B} (f : A -> result B) a l : f a = Panic -> mapM f (a :: l) = Panic.
Proof. intro H. cbn [mapM]. rewrite H. reflexivity. Qed.

Lemma epochs_ok a b : (N.of_nat b < two64 - 1)%N ->
  epochs (N.of_nat a) (N.of_nat b) = Ok (map (fun i => N.of_nat (a + i)) (seq 0 (S b - a))).
Proof.
  intro H. unfold epochs. destruct (N.eqb_spec (N.of_nat b) (two64 - 1)); [lia|].
  f_equal. replace (N.to_nat (N.of_nat b + 1 - N.of_nat a)) with (S b - a) by lia.
  apply map_ext. intro i. lia.
Qed.
Lemma nth_epochs a m i x : nth_error (map (fun i => N.of_nat (a + i)) (seq 0 m)) i = Some x ->
  i < m /\ x = N.of_nat (a + i).
Proof.
  intro H. pose proof (nth_error_lt _ _ _ H) as L. rewrite map_length, seq_length in L. split; auto.
  rewrite nth_error_map in H. destruct (nth_error (seq 0 m) i) as [j|] eqn:E; simpl in H; [|discriminate].
  injection H as <-. f_equal. f_equal.
  apply nth_error_nth with (d := 0) in E. rewrite seq_nth in E by auto. lia.
Qed.

Section Main.
  Context {C : Crypto} (OK : CryptoOk C).
  Variables (dl0 : N) (vk sk : bytes) (size : nat).
  Notation dinv := (dir_inv dl0 vk sk size).

  Lemma range_strs d ops pops hist lo a b :
    dinv d ops pops hist ->
    (forall e, lo <= e -> e <= dupdates ops -> GetSTR (dr_pad d) (N.of_nat e) = nth_error hist e) ->
    lo <= a -> b <= dupdates ops -> (N.of_nat b < two64 - 1)%N ->
    exists eps strs, epochs (N.of_nat a) (N.of_nat b) = Ok eps /\
      mapM (fun ep => NewDirSTR' (GetSTR (dr_pad d) ep)) eps = Ok strs /\
      length strs = S b - a /\
      forall i s, nth_error strs i = Some s -> exists s0, nth_error hist (a + i) = Some s0 /\ s = NewDirSTR s0.
  Proof.
    intros I G La Lb B. rewrite (epochs_ok a b B).
    destruct (mapM_nth (fun ep => NewDirSTR' (GetSTR (dr_pad d) ep))
      (fun i s => exists s0, nth_error hist (a + i) = Some s0 /\ s = NewDirSTR s0)
      (map (fun i => N.of_nat (a + i)) (seq 0 (S b - a))) 0) as (strs & E & L & P).
    { intros i x Hx. apply nth_epochs in Hx. destruct Hx as (Li & ->). rewrite G by lia.
      destruct (nth_error hist (a + i)) as [s0|] eqn:N.
      - exists (NewDirSTR s0). split; [reflexivity|]. exists s0. auto.
      - apply nth_error_None in N. rewrite (pi_len _ _ _ _ _ _ _ _ (di_pad _ _ _ _ _ _ _ _ I)), (di_upd _ _ _ _ _ _ _ _ I) in N. lia. }
    eexists. exists strs. split; [reflexivity|]. split; [exact E|]. split; [|exact P].
    rewrite L, map_length, seq_length. reflexivity.
  Qed.

  Lemma cache_window d ops pops hist : dinv d ops pops hist ->
    exists lo, lo <= dupdates ops /\ S (dupdates ops) - lo <= Nat.max 2 size /\
      (lo = 0 \/ Nat.max 1 size / 2 < S (dupdates ops) - lo) /\
      (forall e, e < lo -> GetSTR (dr_pad d) (N.of_nat e) = None) /\
      (forall e, lo <= e -> e <= dupdates ops -> GetSTR (dr_pad d) (N.of_nat e) = nth_error hist e).
  Proof.
    intros []. destruct (getstr_spec _ _ _ _ _ _ _ _ di_pad) as (lo & L & W & LO & _ & G1 & G2 & _).
    rewrite di_upd in *. exists lo. auto.
  Qed.

  Lemma monitor_loop_spec d ops pops hist lo name :
    dinv d ops pops hist -> dir_sem vk sk d ops pops -> vrf_good vk (name :: names_of ops) ->
    (forall e, lo <= e -> e <= dupdates ops -> GetSTR (dr_pad d) (N.of_nat e) = nth_error hist e) ->
    forall m a, lo <= a -> a + m <= S (dupdates ops) ->
    exists aps strs, monitor_loop d name (map (fun i => N.of_nat (a + i)) (seq 0 m)) = Ok (Some (aps, strs)) /\
      length aps = m /\ length strs = m /\
      forall i, i < m -> exists ap s0, nth_error aps i = Some ap /\ nth_error strs i = Some (NewDirSTR s0) /\
        nth_error hist (a + i) = Some s0 /\
        shows (vrf_pub vk) name ap (reg (dupto (a + i) ops) name) (s_hash (st_body s0)).
  Proof.
    intros I S [SP VW] G. induction m as [|m IH]; intros a La Lm.
    - exists [], []. cbn [seq map monitor_loop]. split; [reflexivity|]. split; auto. split; auto. intros; lia.
    - cbn [seq map]. replace (map (fun i => N.of_nat (a + i)) (seq 1 m)) with (map (fun i => N.of_nat (Datatypes.S a + i)) (seq 0 m)).
      2:{ rewrite <- seq_shift, map_map. apply map_ext. intro i. f_equal. lia. }
      rewrite Nat.add_0_r. cbn [monitor_loop].
      destruct (nth_error hist a) as [s0|] eqn:N.
      2:{ apply nth_error_None in N. rewrite (pi_len _ _ _ _ _ _ _ _ (di_pad _ _ _ _ _ _ _ _ I)), (di_upd _ _ _ _ _ _ _ _ I) in N. lia. }
      assert (Ga : GetSTR (dr_pad d) (N.of_nat a) = Some s0) by (rewrite G by lia; exact N).
      destruct (dir_lookup OK dl0 vk sk size d ops pops hist (N.of_nat a) s0 a name I S SP Ga N ltac:(lia))
        as (ap & leaf & E & AL & LK & VR & M).
      rewrite E. cbn [bind]. rewrite Ga. cbn [NewDirSTR' bind].
      destruct (IH (Datatypes.S a) ltac:(lia) ltac:(lia)) as (aps & strs & E' & L1 & L2 & P).
      rewrite E'. cbn [bind option_map fst snd]. exists (ap :: aps), (NewDirSTR s0 :: strs).
      split; auto. split; [simpl; auto|]. split; [simpl; auto|].
      intros [|i] Hi.
      + rewrite Nat.add_0_r. exists ap, s0. split; auto. split; auto. split; auto.
        unfold shows. rewrite LK, VR. split; [apply VW; left; reflexivity|].
        destruct (reg (dupto a ops) name) as [k|].
        * destruct M as (_ & M1 & M2 & M3). split; [exact M3|]. exists leaf. auto.
        * destruct M as (_ & M1 & M2 & M3). split; [apply M3|]. exists leaf. auto.
      + replace (a + Datatypes.S i) with (Datatypes.S a + i) by lia. simpl nth_error. apply P. lia.
  Qed.

  (** *** Published STRs *)
  Lemma dir_built_fun r1 r2 ops d1 d2 :
    dir_built dl0 vk sk size r1 r2 ops d1 -> dir_built dl0 vk sk size r1 r2 ops d2 -> d1 = d2.
  Proof. intros (a & A1 & A2) (b & B1 & B2). rewrite A1 in B1. injection B1 as <-. congruence. Qed.

  Lemma published_fun r1 r2 ops k s1 s2 :
    published dl0 vk sk size r1 r2 ops k s1 -> published dl0 vk sk size r1 r2 ops k s2 -> s1 = s2.
  Proof. intros (d1 & B1 & ->) (d2 & B2 & ->). rewrite (dir_built_fun _ _ _ _ _ B1 B2). reflexivity. Qed.

  Lemma hist_str d ops pops hist k s0 : dinv d ops pops hist -> nth_error hist k = Some s0 ->
    epoch_of (NewDirSTR s0) = Some (N.of_nat k) /\
    d_pol (NewDirSTR s0) = Some (NewPolicies (deadline_after dl0 (dupto (k - 1) ops)) (vrf_pub vk)) /\
    signed_by (sign_pub sk) (NewDirSTR s0) /\
    s_pepoch (st_body s0) = N.of_nat (k - 1).
  Proof.
    intros I N. pose proof (nth_error_lt _ _ _ N) as L.
    rewrite (pi_len _ _ _ _ _ _ _ _ (di_pad _ _ _ _ _ _ _ _ I)), (di_upd _ _ _ _ _ _ _ _ I) in L.
    destruct (pi_hist _ _ _ _ _ _ _ _ (di_pad _ _ _ _ _ _ _ _ I) _ _ N).
    unfold epoch_of, NewDirSTR. cbn [d_body d_pol option_map]. rewrite so_epoch. split; auto. split; [|split; auto].
    - rewrite so_ad. f_equal. apply (di_ad _ _ _ _ _ _ _ _ I). lia.
    - exists (st_body s0), (STR_Serialize Policies_Serialize (st_body s0) (st_ad s0)).
      split; auto. split; auto. rewrite so_sig. apply ok_sign. exact OK.
  Qed.

  Lemma hist_chain d ops pops hist k s0 s1 : dinv d ops pops hist -> (N.of_nat (dupdates ops) < two64)%N ->
    nth_error hist k = Some s0 -> nth_error hist (S k) = Some s1 -> extends (NewDirSTR s1) (NewDirSTR s0).
  Proof.
    intros I B N0 N1. pose proof (nth_error_lt _ _ _ N1) as L.
    rewrite (pi_len _ _ _ _ _ _ _ _ (di_pad _ _ _ _ _ _ _ _ I)), (di_upd _ _ _ _ _ _ _ _ I) in L.
    destruct (pi_hist _ _ _ _ _ _ _ _ (di_pad _ _ _ _ _ _ _ _ I) _ _ N0).
    destruct (pi_hist _ _ _ _ _ _ _ _ (di_pad _ _ _ _ _ _ _ _ I) _ _ N1).
    pose proof (pi_chain _ _ _ _ _ _ _ _ (di_pad _ _ _ _ _ _ _ _ I) _ _ _ N0 N1) as Ch.
    unfold extends, DirSTR_VerifyHashChain, NewDirSTR, VerifyHashChain. cbn [d_body].
    rewrite so_epoch, so_epoch0, so_pepoch0, Ch, beq_refl.
    replace (S k - 1) with k by lia. rewrite N.eqb_refl. unfold add64. rewrite N.mod_small by lia.
    rewrite (proj2 (N.eqb_eq _ _)) by lia. reflexivity.
  Qed.
End Main.
