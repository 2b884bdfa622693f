(** Proofs about Slices.v: the directory. *)
From Coq Require Import List NArith Lia Bool Arith.
From Verif Require Import Base Utils Crypto Tree STR PAD PADFacts Protocol Directory Slices SlicesSpec SlicesFacts.
Import ListNotations.

Lemma G_weaken L n0 L' n0' m s : (forall a, In a L \/ n0 <= a -> a < length m -> In a L' \/ n0' <= a) -> G L n0 m s -> G L' n0' m s.
Proof.
  intros W [V F]. split; [exact V|]. intros a Ia. apply W; [apply F; exact Ia|]. destruct s as [s|]; [|destruct Ia].
  cbn [arrays flat_map app In] in Ia. destruct Ia as [<-|[]]. exact (proj1 V).
Qed.
Lemma Gs_weaken L n0 L' n0' m l : (forall a, In a L \/ n0 <= a -> a < length m -> In a L' \/ n0' <= a) -> Forall (G L n0 m) l -> Forall (G L' n0' m) l.
Proof. intro W. apply Forall_impl. intro s. apply G_weaken. exact W. Qed.
Lemma ok_tree_weaken L n0 L' n0' m t : (forall a, In a L \/ n0 <= a -> a < length m -> In a L' \/ n0' <= a) -> ok_tree L n0 m t -> ok_tree L' n0' m t.
Proof. intros W [F N]. split; [eapply Gs_weaken; eassumption|exact N]. Qed.
Lemma ok_str_weaken L n0 L' n0' m s : (forall a, In a L \/ n0 <= a -> a < length m -> In a L' \/ n0' <= a) -> ok_str L n0 m s -> ok_str L' n0' m s.
Proof. intros W (H1 & H2 & H3 & H4 & H5). repeat (split; [eapply G_weaken; eassumption|]). eapply ok_tree_weaken; eassumption. Qed.
Lemma ok_pad_weaken L n0 L' n0' m p : (forall a, In a L \/ n0 <= a -> a < length m -> In a L' \/ n0' <= a) -> ok_pad L n0 m p -> ok_pad L' n0' m p.
Proof.
  intros W (H1 & H2 & H3 & H4 & H5 & H6). split; [eapply G_weaken; eassumption|]. split; [eapply G_weaken; eassumption|]. split; [eapply G_weaken; eassumption|].
  split; [eapply ok_tree_weaken; eassumption|]. split; [eapply ok_str_weaken; eassumption|]. revert H6. apply Forall_impl. intro x. apply ok_str_weaken. exact W.
Qed.

Lemma Forall_flat {A B} (P : B -> Prop) (f : A -> list B) l : Forall P (flat_map f l) <-> Forall (fun x => Forall P (f x)) l.
Proof.
  induction l as [|x l IH]; cbn [flat_map]; [split; constructor|]. rewrite Forall_app, IH. split.
  - intros [H1 H2]. constructor; assumption.
  - intro H. split; [exact (Forall_inv H)|exact (Forall_inv_tail H)].
Qed.
Lemma ok_str_iff L n0 m s : ok_str L n0 m s <-> Forall (G L n0 m) (ss_str s) /\ nn (rt_root (rs_tree s)).
Proof.
  unfold ok_str, ok_tree, ss_str. rewrite !Forall_cons_iff. tauto.
Qed.
Lemma ok_pad_iff L n0 m p : ok_pad L n0 m p <-> Forall (G L n0 m) (ss_pad p) /\ nn_pad p.
Proof.
  unfold ok_pad, nn_pad, ss_pad. rewrite !Forall_cons_iff, !Forall_app, Forall_flat. unfold ok_tree. rewrite ok_str_iff.
  assert (E : Forall (fun x : N * rSTR => ok_str L n0 m (snd x)) (rp_snap p) <->
              Forall (fun x : N * rSTR => Forall (G L n0 m) (ss_str (snd x))) (rp_snap p) /\ Forall (fun x : N * rSTR => nn (rt_root (rs_tree (snd x)))) (rp_snap p)).
  { rewrite !Forall_forall. setoid_rewrite ok_str_iff. split; [intro H; split; intros x I; apply (H x I)|]. intros [H1 H2] x I. split; [exact (H1 x I)|exact (H2 x I)]. }
  rewrite E. tauto.
Qed.

Section Dir.
  Variable growth : nat -> nat -> nat.
  Variables (L Lt : list nat) (n0 : nat).
  Hypothesis LLt : incl L Lt.
  Context {C : Crypto}.

  (** The dictionary and the policies in arrays of [L], the bindings in arrays of
      [Lt] (or younger ones). *)
  Definition ok_tb (m : mem) (b : rTB) : Prop := Forall (G Lt n0 m) (ss_tb b).
  Definition ok_dir (m : mem) (d : rDir) : Prop :=
    ok_pad L n0 m (rd_pad d) /\ G L n0 m (rq_vrf (rd_pol d)) /\ Forall (fun x => ok_tb m (snd x)) (rd_tbs d).
  Definition ok_ap (m : mem) (a : rAP) : Prop := Forall (G L n0 m) (ss_ap a).
  Definition ok_resp (m : mem) (r : rResp) : Prop :=
    match r with
    | RErr _ => True
    | RProof _ aps strs tb => Forall (ok_ap m) aps /\ Forall (ok_str L n0 m) strs /\ (forall b, tb = Some b -> ok_tb m b)
    | RHistory strs => Forall (ok_str L n0 m) strs
    end.

  Lemma v_pn_ext m m' n : ext m m' -> Forall (vs m) (ss_pn n) -> v_pn m' n = v_pn m n.
  Proof.
    intros E. unfold ss_pn, v_pn. intro F. apply Forall_cons_iff in F as [F1 F]. apply Forall_cons_iff in F as [F2 F].
    rewrite (rd_ext m m' _ E F1), (v_hash_ext m m' _ E F2). destruct (rn_com n) as [[s c]|]; cbn [option_map fst snd] in *; [|reflexivity].
    apply Forall_cons_iff in F as [F3 F]. apply Forall_cons_iff in F as [F4 F]. rewrite (rd_ext m m' _ E F3), (rd_ext m m' _ E F4). reflexivity.
  Qed.
  Lemma v_ap_ext m m' a : ext m m' -> Forall (vs m) (ss_ap a) -> v_ap m' a = v_ap m a.
  Proof.
    intros E. unfold ss_ap, v_ap. intro F. apply Forall_cons_iff in F as [F1 F]. apply Forall_cons_iff in F as [F2 F]. apply Forall_cons_iff in F as [F3 F].
    rewrite (rd_ext m m' _ E F1), (rd_ext m m' _ E F2), (rd_ext m m' _ E F3). destruct (ra_leaf a) as [n|]; cbn [option_map]; [|reflexivity].
    rewrite (v_pn_ext m m' n E F). reflexivity.
  Qed.
  Lemma v_tb_ext m m' b : ext m m' -> Forall (vs m) (ss_tb b) -> v_tb m' b = v_tb m b.
  Proof.
    intros E. unfold ss_tb, v_tb. intro F. apply Forall_cons_iff in F as [F1 F]. apply Forall_cons_iff in F as [F2 F]. apply Forall_cons_iff in F as [F3 F].
    rewrite (rd_ext m m' _ E F1), (rd_ext m m' _ E F2), (rd_ext m m' _ E F3). reflexivity.
  Qed.
  Lemma ok_tb_ext m m' b : ext m m' -> ok_tb m b -> ok_tb m' b.
  Proof. intro E. apply Gs_ext. exact E. Qed.
  Lemma ok_ap_ext m m' a : ext m m' -> ok_ap m a -> ok_ap m' a.
  Proof. intro E. apply Gs_ext. exact E. Qed.
  Lemma ok_tbs_ext m m' l : ext m m' -> Forall (fun x : bytes * rTB => ok_tb m (snd x)) l -> Forall (fun x : bytes * rTB => ok_tb m' (snd x)) l.
  Proof. intro E. apply Forall_impl. intro x. apply ok_tb_ext. exact E. Qed.
  Lemma v_tbs_ext m m' l : ext m m' -> Forall (fun x : bytes * rTB => ok_tb m (snd x)) l -> v_tbs m' l = v_tbs m l.
  Proof.
    intros E F. unfold v_tbs. apply map_ext_in. intros x I. rewrite (v_tb_ext m m' _ E); [reflexivity|]. apply (Gs_vs Lt n0). exact (proj1 (Forall_forall _ _) F x I).
  Qed.
  Lemma ok_dir_ext m m' d : ext m m' -> ok_dir m d -> ok_dir m' d.
  Proof. intros E (H1 & H2 & H3). split; [eapply ok_pad_ext; eassumption|]. split; [eapply G_ext; eassumption|]. eapply ok_tbs_ext; eassumption. Qed.
  Lemma v_dir_ext m m' d : ext m m' -> ok_dir m d -> v_dir m' d = v_dir m d.
  Proof.
    intros E (H1 & H2 & H3). unfold v_dir. rewrite (v_pad_ext L n0 m m' _ E H1), (v_tbs_ext m m' _ E H3). unfold v_pol. rewrite (rd_ext m m' _ E (G_vs _ _ _ _ H2)). reflexivity.
  Qed.
  Lemma ok_strs_ext m m' l : ext m m' -> Forall (ok_str L n0 m) l -> Forall (ok_str L n0 m') l.
  Proof. intro E. apply Forall_impl. intro x. apply ok_str_ext. exact E. Qed.
  Lemma ok_resp_ext m m' r : ext m m' -> ok_resp m r -> ok_resp m' r.
  Proof.
    intro E. destruct r as [e|e aps strs tb|strs]; cbn [ok_resp]; [auto| |apply ok_strs_ext; exact E].
    intros (H1 & H2 & H3). split; [revert H1; apply Forall_impl; intro a; apply ok_ap_ext; exact E|]. split; [eapply ok_strs_ext; eassumption|].
    intros b Hb. eapply ok_tb_ext; [exact E|apply H3; exact Hb].
  Qed.
  Lemma map_str_ext m m' l : ext m m' -> Forall (ok_str L n0 m) l -> map (v_str m') l = map (v_str m) l.
  Proof. intros E F. apply map_ext_in. intros s I. apply (v_str_ext L n0 m m' _ E). exact (proj1 (Forall_forall _ _) F s I). Qed.

  (** ** Creation and epochs *)
  Lemma Dir_New_done dl vrf sign len useTBs r1 r2 m : n0 <= length m -> G L n0 m vrf -> G L n0 m sign ->
    match Directory_New dl (rd m vrf) (rd m sign) len useTBs r1 r2 with
    | Panic => r_Dir_New growth dl vrf sign len useTBs r1 r2 m = Panic
    | Ok v => exists d m', r_Dir_New growth dl vrf sign len useTBs r1 r2 m = Ok (d, m') /\ ext m m' /\ ok_dir m' d /\ v_dir m' d = v
    end.
  Proof.
    intros N GV GS. unfold Directory_New, r_Dir_New. destruct useTBs; [|reflexivity]. cbv zeta.
    set (pk := vrf_pub (rd m vrf)). clearbody pk. destruct (make pk m) as [ps m1] eqn:E1. destruct (make_G L n0 _ _ _ _ N E1) as (X1 & G1 & R1).
    assert (N1 : n0 <= length m1) by (apply ext_len in X1; lia).
    pose proof (NewPAD_done growth L n0 (mkRPol Version HashID ps dl) sign vrf len r1 r2 m1 N1 (G_ext _ _ _ _ _ X1 GS) (G_ext _ _ _ _ _ X1 GV) G1) as D.
    assert (VP : v_pol m1 (mkRPol Version HashID ps dl) = NewPolicies dl pk) by (unfold v_pol, NewPolicies; cbn [rq_version rq_hashid rq_vrf rq_deadline]; rewrite R1; reflexivity).
    rewrite VP, (rd_ext m m1 _ X1 (G_vs _ _ _ _ GS)), (rd_ext m m1 _ X1 (G_vs _ _ _ _ GV)) in D.
    destruct (NewPAD Policies_Serialize (NewPolicies dl pk) (rd m sign) (rd m vrf) len r1 r2) as [[v|]|]; cbn [bind]; [|rewrite D; reflexivity|rewrite D; reflexivity].
    destruct D as (p & m2 & -> & X2 & OP & <-). cbn [bind]. eexists _, m2. split; [reflexivity|]. split; [eapply ext_trans; eassumption|].
    split; [split; [exact OP|]; split; [eapply G_ext; eassumption|constructor]|].
    unfold v_dir. cbn [rd_pad rd_useTBs rd_tbs rd_pol v_tbs map]. f_equal. rewrite <- VP. unfold v_pol. cbn [rq_vrf]. rewrite (rd_ext m1 m2 _ X2 (G_vs _ _ _ _ G1)). reflexivity.
  Qed.
  Lemma Dir_Update_done d m d' m' : n0 <= length m -> ok_dir m d -> r_Dir_Update growth d m = (d', m') ->
    ext m m' /\ ok_dir m' d' /\ rd_tbs d' = [] /\ v_dir m' d' = Directory_Update (v_dir m d).
  Proof.
    intros N (H1 & H2 & H3). unfold r_Dir_Update, Directory_Update. destruct (r_Update growth (rd_pad d) (Some (rd_pol d)) m) as [p' m1] eqn:E.
    assert (GA : forall a, Some (rd_pol d) = Some a -> G L n0 m (rq_vrf a)) by (intros a Ha; injection Ha as <-; exact H2).
    destruct (Update_done _ L n0 _ _ _ _ _ N H1 GA E) as (X & OP & V). intro H. injection H as <- <-. split; [exact X|].
    split; [split; [exact OP|]; split; [eapply G_ext; eassumption|constructor]|]. split; [reflexivity|].
    unfold v_dir. cbn [rd_pad rd_useTBs rd_tbs rd_pol v_tbs map dr_pad dr_pol dr_useTBs]. rewrite V. cbn [option_map].
    f_equal. unfold v_pol. rewrite (rd_ext m m1 _ X (G_vs _ _ _ _ H2)). reflexivity.
  Qed.
  Lemma SetPolicies_done d dl m : ok_dir m d -> ok_dir m (r_SetPolicies d dl) /\ v_dir m (r_SetPolicies d dl) = SetPolicies (v_dir m d) dl.
  Proof. intros (H1 & H2 & H3). split; [split; [exact H1|]; split; [exact H2|exact H3]|reflexivity]. Qed.

  (** ** Requests *)
  Lemma matches_v a m : r_matches a m = leaf_matches (v_ap m a).
  Proof. unfold r_matches, leaf_matches. cbn [v_ap ap_leaf]. destruct (ra_leaf a) as [n|]; reflexivity. Qed.
  Lemma latest_v m d : latestEpoch (v_dir m d) = rs_epoch (rp_latest (rd_pad d)).
  Proof. reflexivity. Qed.
  Lemma r_latest_ok m d : ok_dir m d -> ok_str L n0 m (rp_latest (rd_pad d)).
  Proof. intros ((_ & _ & _ & _ & H & _) & _). exact H. Qed.

  Lemma KeyLookup_done d name m : n0 <= length m -> ok_dir m d ->
    match KeyLookup (v_dir m d) name with
    | Panic => r_KeyLookup d name m = Panic
    | Ok v => exists r m', r_KeyLookup d name m = Ok (r, m') /\ ext m m' /\ ok_resp m' r /\ v_resp m' r = v
    end.
  Proof.
    intros N OD. unfold KeyLookup, r_KeyLookup. destruct (is_nil name); [exists (RErr ErrMalformedMessage), m; split; [reflexivity|split; [apply ext_refl|split; [exact I|reflexivity]]]|].
    pose proof OD as (OP & _ & OT). unfold Lookup, r_Lookup. change (s_epoch (st_body (pd_latest (dr_pad (v_dir m d))))) with (rs_epoch (rp_latest (rd_pad d))). change (dr_pad (v_dir m d)) with (v_pad m (rd_pad d)).
    pose proof (LookupInEpoch_done L n0 (rd_pad d) name (rs_epoch (rp_latest (rd_pad d))) m N OP) as D.
    destruct (LookupInEpoch (v_pad m (rd_pad d)) name (rs_epoch (rp_latest (rd_pad d)))) as [o|]; cbn [bind]; [|rewrite D; reflexivity].
    destruct D as (o' & m1 & -> & X & D). cbn [bind]. destruct o' as [a|]; [|subst o; exists (RErr ErrDirectory), m1; split; [reflexivity|split; [exact X|split; [exact I|reflexivity]]]].
    destruct D as [Fa ->]. rewrite matches_v. destruct (leaf_matches (v_ap m1 a)) as [found|]; cbn [bind]; [|reflexivity].
    pose proof (ok_str_ext _ _ _ _ _ X (r_latest_ok m d OD)) as OL. pose proof (v_str_ext L n0 m m1 _ X (r_latest_ok m d OD)) as VL.
    change (dr_tbs (v_dir m d)) with (v_tbs m (rd_tbs d)). change (dr_useTBs (v_dir m d)) with (rd_useTBs d).
    unfold v_tbs at 1. rewrite map_get_v.
    assert (TB : forall tb, (if rd_useTBs d then map_get beq name (rd_tbs d) else None) = Some tb -> ok_tb m tb).
    { intros tb. destruct (rd_useTBs d); [|discriminate]. apply (map_get_ok beq (ok_tb m)). exact OT. }
    assert (TE : (if rd_useTBs d then option_map (v_tb m) (map_get beq name (rd_tbs d)) else None) = option_map (v_tb m) (if rd_useTBs d then map_get beq name (rd_tbs d) else None)) by (destruct (rd_useTBs d); reflexivity).
    rewrite TE. clear TE. destruct found.
    - eexists _, m1. split; [reflexivity|]. split; [exact X|]. split; [split; [constructor; [exact Fa|constructor]|split; [constructor; [exact OL|constructor]|discriminate]]|].
      cbn [v_resp map option_map]. rewrite VL. reflexivity.
    - destruct (if rd_useTBs d then map_get beq name (rd_tbs d) else None) as [tb|]; cbn [option_map].
      + specialize (TB tb eq_refl). eexists _, m1. split; [reflexivity|]. split; [exact X|].
        split; [split; [constructor; [exact Fa|constructor]|split; [constructor; [exact OL|constructor]|intros b Hb; injection Hb as <-; eapply ok_tb_ext; eassumption]]|].
        cbn [v_resp map option_map]. rewrite VL, (v_tb_ext m m1 tb X (Gs_vs _ _ _ _ TB)). reflexivity.
      + eexists _, m1. split; [reflexivity|]. split; [exact X|]. split; [split; [constructor; [exact Fa|constructor]|split; [constructor; [exact OL|constructor]|discriminate]]|].
        cbn [v_resp map option_map]. rewrite VL. reflexivity.
  Qed.

  Lemma strs_done d m eps : ok_dir m d ->
    match mapM (fun ep => NewDirSTR' (GetSTR (dr_pad (v_dir m d)) ep)) eps with
    | Panic => mapM (fun ep => r_str (r_GetSTR (rd_pad d) ep)) eps = Panic
    | Ok v => exists l, mapM (fun ep => r_str (r_GetSTR (rd_pad d) ep)) eps = Ok l /\ Forall (ok_str L n0 m) l /\ map (fun s => NewDirSTR (v_str m s)) l = v
    end.
  Proof.
    intros (OP & _). cbn [dr_pad v_dir]. induction eps as [|e eps IH]; cbn [mapM]; [exists []; split; [reflexivity|split; [constructor|reflexivity]]|].
    destruct (GetSTR_done L n0 (rd_pad d) e m OP) as [EQ OK]. rewrite EQ. destruct (r_GetSTR (rd_pad d) e) as [s|]; cbn [option_map NewDirSTR' r_str bind]; [|reflexivity].
    destruct (mapM (fun ep => NewDirSTR' (GetSTR (v_pad m (rd_pad d)) ep)) eps) as [v|]; cbn [bind]; [|rewrite IH; reflexivity].
    destruct IH as (l & -> & F & <-). cbn [bind]. exists (s :: l). split; [reflexivity|]. split; [constructor; [apply OK; reflexivity|exact F]|reflexivity].
  Qed.
  Lemma map_dirstr_ext m m' l : ext m m' -> Forall (ok_str L n0 m) l -> map (fun s => Some (NewDirSTR (v_str m' s))) l = map Some (map (fun s => NewDirSTR (v_str m s)) l).
  Proof. intros E F. rewrite map_map. apply map_ext_in. intros s I. rewrite (v_str_ext L n0 m m' _ E); [reflexivity|]. exact (proj1 (Forall_forall _ _) F s I). Qed.

  Lemma KeyLookupInEpoch_done d name e m : n0 <= length m -> ok_dir m d ->
    match KeyLookupInEpoch (v_dir m d) name e with
    | Panic => r_KeyLookupInEpoch d name e m = Panic
    | Ok v => exists r m', r_KeyLookupInEpoch d name e m = Ok (r, m') /\ ext m m' /\ ok_resp m' r /\ v_resp m' r = v
    end.
  Proof.
    intros N OD. unfold KeyLookupInEpoch, r_KeyLookupInEpoch. rewrite latest_v.
    destruct (is_nil name || N.ltb (rs_epoch (rp_latest (rd_pad d))) e); [exists (RErr ErrMalformedMessage), m; split; [reflexivity|split; [apply ext_refl|split; [exact I|reflexivity]]]|].
    pose proof OD as (OP & _ & OT). pose proof (LookupInEpoch_done L n0 (rd_pad d) name e m N OP) as D.
    change (dr_pad (v_dir m d)) with (v_pad m (rd_pad d)) at 1.
    destruct (LookupInEpoch (v_pad m (rd_pad d)) name e) as [o|]; cbn [bind]; [|rewrite D; reflexivity].
    destruct D as (o' & m1 & -> & X & D). cbn [bind]. destruct o' as [a|]; [|subst o; exists (RErr ErrDirectory), m1; split; [reflexivity|split; [exact X|split; [exact I|reflexivity]]]].
    destruct D as [Fa ->]. destruct (epochs e (rs_epoch (rp_latest (rd_pad d)))) as [eps|]; cbn [bind]; [|reflexivity].
    pose proof (strs_done d m eps OD) as DS. destruct (mapM (fun ep => NewDirSTR' (GetSTR (dr_pad (v_dir m d)) ep)) eps) as [strs|]; cbn [bind]; [|rewrite DS; reflexivity].
    destruct DS as (l & -> & Fl & <-). cbn [bind]. rewrite matches_v. destruct (leaf_matches (v_ap m1 a)) as [found|]; cbn [bind]; [|reflexivity].
    destruct found; eexists _, m1; (split; [reflexivity|]); (split; [exact X|]);
      (split; [split; [constructor; [exact Fa|constructor]|split; [eapply ok_strs_ext; eassumption|discriminate]]|]);
      cbn [v_resp option_map]; rewrite (map_dirstr_ext m m1 l X Fl); reflexivity.
  Qed.

  Lemma GetSTRHistory_done d s e m : ok_dir m d ->
    match GetSTRHistory (v_dir m d) s e with
    | Panic => r_GetSTRHistory d s e m = Panic
    | Ok v => exists r, r_GetSTRHistory d s e m = Ok (r, m) /\ ok_resp m r /\ v_resp m r = v
    end.
  Proof.
    intros OD. unfold GetSTRHistory, r_GetSTRHistory. rewrite latest_v. set (le := rs_epoch (rp_latest (rd_pad d))).
    destruct (N.ltb le s || N.ltb e s); [exists (RErr ErrMalformedMessage); split; [reflexivity|split; [exact I|reflexivity]]|].
    cbv zeta. destruct (epochs s (if N.ltb le e then le else e)) as [eps|]; cbn [bind]; [|reflexivity].
    pose proof (strs_done d m eps OD) as DS. destruct (mapM (fun ep => NewDirSTR' (GetSTR (dr_pad (v_dir m d)) ep)) eps) as [strs|]; cbn [bind]; [|rewrite DS; reflexivity].
    destruct DS as (l & -> & Fl & <-). cbn [bind]. eexists. split; [reflexivity|]. split; [exact Fl|]. cbn [v_resp]. rewrite map_map. reflexivity.
  Qed.

  Lemma monitor_loop_done d name eps : forall m, n0 <= length m -> ok_dir m d ->
    match monitor_loop (v_dir m d) name eps with
    | Panic => r_monitor_loop d name eps m = Panic
    | Ok v => exists o m', r_monitor_loop d name eps m = Ok (o, m') /\ ext m m' /\
        match o with
        | None => v = None
        | Some (aps, strs) => Forall (ok_ap m') aps /\ Forall (ok_str L n0 m') strs /\ v = Some (map (v_ap m') aps, map (fun s => NewDirSTR (v_str m' s)) strs)
        end
    end.
  Proof.
    induction eps as [|e eps IH]; intros m N OD; cbn [monitor_loop r_monitor_loop].
    { exists (Some ([], [])), m. split; [reflexivity|]. split; [apply ext_refl|]. split; [constructor|]. split; [constructor|reflexivity]. }
    pose proof OD as (OP & _ & OT). pose proof (LookupInEpoch_done L n0 (rd_pad d) name e m N OP) as D.
    change (dr_pad (v_dir m d)) with (v_pad m (rd_pad d)).
    destruct (LookupInEpoch (v_pad m (rd_pad d)) name e) as [o|]; cbn [bind]; [|rewrite D; reflexivity].
    destruct D as (o' & m1 & -> & X & D). cbn [bind]. destruct o' as [a|]; [|subst o; exists None, m1; split; [reflexivity|split; [exact X|reflexivity]]].
    destruct D as [Fa ->]. destruct (GetSTR_done L n0 (rd_pad d) e m OP) as [EQ OK]. rewrite EQ.
    destruct (r_GetSTR (rd_pad d) e) as [s|]; cbn [option_map NewDirSTR' r_str bind]; [|reflexivity]. specialize (OK s eq_refl).
    assert (N1 : n0 <= length m1) by (apply ext_len in X; lia). specialize (IH m1 N1 (ok_dir_ext _ _ _ X OD)). rewrite (v_dir_ext m m1 d X OD) in IH.
    destruct (monitor_loop (v_dir m d) name eps) as [v|]; cbn [bind]; [|rewrite IH; reflexivity].
    destruct IH as (o & m2 & -> & X2 & D). cbn [bind]. eexists _, m2. split; [reflexivity|]. split; [eapply ext_trans; eassumption|].
    destruct o as [[aps strs]|]; cbn [option_map fst snd]; [|rewrite D; reflexivity]. destruct D as (Fs & Ss & ->). cbn [option_map fst snd map].
    assert (X02 : ext m m2) by (eapply ext_trans; eassumption).
    split; [constructor; [exact (ok_ap_ext m1 m2 a X2 Fa)|exact Fs]|]. split; [constructor; [exact (ok_str_ext _ _ _ _ _ X02 OK)|exact Ss]|].
    rewrite (v_ap_ext m1 m2 a X2 (Gs_vs _ _ _ _ Fa)), (v_str_ext L n0 m m2 s X02 OK). reflexivity.
  Qed.
  Lemma Monitor_done d name s e m : n0 <= length m -> ok_dir m d ->
    match Monitor (v_dir m d) name s e with
    | Panic => r_Monitor d name s e m = Panic
    | Ok v => exists r m', r_Monitor d name s e m = Ok (r, m') /\ ext m m' /\ ok_resp m' r /\ v_resp m' r = v
    end.
  Proof.
    intros N OD. unfold Monitor, r_Monitor. rewrite latest_v. set (le := rs_epoch (rp_latest (rd_pad d))).
    destruct (is_nil name || N.ltb le s || N.ltb e s); [exists (RErr ErrMalformedMessage), m; split; [reflexivity|split; [apply ext_refl|split; [exact I|reflexivity]]]|].
    cbv zeta. destruct (epochs s (if N.ltb le e then le else e)) as [eps|]; cbn [bind]; [|reflexivity].
    pose proof (monitor_loop_done d name eps m N OD) as D. destruct (monitor_loop (v_dir m d) name eps) as [v|]; cbn [bind]; [|rewrite D; reflexivity].
    destruct D as (o & m1 & -> & X & D). cbn [bind]. destruct o as [[aps strs]|].
    - destruct D as (Fs & Ss & ->). eexists _, m1. split; [reflexivity|]. split; [exact X|]. split; [split; [exact Fs|split; [exact Ss|discriminate]]|].
      cbn [v_resp option_map]. unfold NewMonitoringProof. rewrite !map_map. reflexivity.
    - subst v. eexists _, m1. split; [reflexivity|]. split; [exact X|]. split; [exact I|reflexivity].
  Qed.

  Lemma G_LLt m s : G L n0 m s -> G Lt n0 m s.
  Proof. apply G_weaken. intros a [H|H] _; [left; apply LLt; exact H|right; exact H]. Qed.
  Lemma NewTB_done d name key m b m' : n0 <= length m -> ok_dir m d -> G Lt n0 m key -> r_NewTB d name key m = (b, m') ->
    ext m m' /\ ok_tb m' b /\ rb_value b = key /\ v_tb m' b = NewTB (v_dir m d) name (rd m key).
  Proof.
    intros N OD GK. unfold r_NewTB, NewTB, PAD_Sign, Index. destruct OD as ((H1 & H2 & _ & _ & H5 & _) & _ & _).
    destruct (r_index (rd_pad d) name m) as [[i pf] m1] eqn:E1. destruct (index_done L n0 _ _ _ _ _ _ N E1) as (X1 & G1 & _ & R1).
    cbn [dr_pad v_dir pd_vrf v_pad pd_sign]. rewrite <- R1. cbn [fst]. assert (N1 : n0 <= length m1) by (apply ext_len in X1; lia).
    destruct H5 as (_ & _ & HS & _ & _).
    change (s_sig (st_body (pd_latest (dr_pad (v_dir m d))))) with (rd m (rs_sig (rp_latest (rd_pad d)))).
    rewrite (rd_ext m m1 _ X1 (G_vs _ _ _ _ HS)), (rd_ext m m1 _ X1 (G_vs _ _ _ _ GK)).
    change (s_sig (st_body (pd_latest (mkPAD (rd m (rp_sign (rd_pad d))) (rd m (rp_vrf (rd_pad d))) (v_tree m (rp_tree (rd_pad d))) (v_snap m (rp_snap (rd_pad d))) (rp_loaded (rd_pad d)) (rp_cap (rd_pad d)) (v_str m (rp_latest (rd_pad d))) (v_pol m (rp_ad (rd_pad d))))))) with (rd m (rs_sig (rp_latest (rd_pad d)))).
    set (j := concat _). clearbody j. destruct (make j m1) as [js m2] eqn:E2. destruct (make_G L n0 _ _ _ _ N1 E2) as (X2 & G2 & R2).
    assert (N2 : n0 <= length m2) by (apply ext_len in X2; lia). assert (X02 : ext m m2) by (eapply ext_trans; eassumption).
    rewrite R2, (rd_ext m m2 _ X02 (G_vs _ _ _ _ H1)). set (sg := sign_sign _ _). clearbody sg.
    destruct (make sg m2) as [ssg m3] eqn:E3. destruct (make_G L n0 _ _ _ _ N2 E3) as (X3 & G3 & R3). intro H. injection H as <- <-.
    assert (X03 : ext m m3) by (eapply ext_trans; eassumption). assert (X13 : ext m1 m3) by (eapply ext_trans; eassumption).
    split; [exact X03|]. split; [unfold ok_tb, ss_tb; cbn [rb_index rb_value rb_sig]; constructor; [apply G_LLt; exact (G_ext _ _ _ _ _ X13 G1)|constructor; [exact (G_ext _ _ _ _ _ X03 GK)|constructor; [apply G_LLt; exact G3|constructor]]]|].
    split; [reflexivity|]. unfold v_tb. cbn [rb_index rb_value rb_sig].
    rewrite (rd_ext m1 m3 _ X13 (G_vs _ _ _ _ G1)), (rd_ext m m3 _ X03 (G_vs _ _ _ _ GK)), R3. reflexivity.
  Qed.

  Lemma Register_done d r name key m : n0 <= length m -> ok_dir m d -> G Lt n0 m key ->
    match Register (v_dir m d) r name (rd m key) with
    | Panic => r_Register growth d r name key m = Panic
    | Ok (vd, v) => exists d' rs m', r_Register growth d r name key m = Ok (d', rs, m') /\ ext m m' /\ ok_dir m' d' /\ ok_resp m' rs /\ v_dir m' d' = vd /\ v_resp m' rs = v
    end.
  Proof.
    intros N OD GK. unfold Register, r_Register. destruct (is_nil name || is_nil (rd m key)).
    { exists d, (RErr ErrMalformedMessage), m. split; [reflexivity|]. split; [apply ext_refl|]. split; [exact OD|]. split; [exact I|]. split; reflexivity. }
    pose proof OD as (OP & OV & OT). unfold Lookup, r_Lookup. change (s_epoch (st_body (pd_latest (dr_pad (v_dir m d))))) with (rs_epoch (rp_latest (rd_pad d))).
    change (dr_pad (v_dir m d)) with (v_pad m (rd_pad d)).
    pose proof (LookupInEpoch_done L n0 (rd_pad d) name (rs_epoch (rp_latest (rd_pad d))) m N OP) as D.
    destruct (LookupInEpoch (v_pad m (rd_pad d)) name (rs_epoch (rp_latest (rd_pad d)))) as [o|]; cbn [bind]; [|rewrite D; reflexivity].
    destruct D as (o' & m1 & -> & X & D). cbn [bind]. pose proof (v_dir_ext m m1 d X OD) as VD. pose proof (ok_dir_ext m m1 d X OD) as OD1.
    destruct o' as [a|]; [|subst o; exists d, (RErr ErrDirectory), m1; split; [reflexivity|]; split; [exact X|]; split; [exact OD1|]; split; [exact I|]; split; [exact VD|reflexivity]].
    destruct D as [Fa ->]. rewrite matches_v. destruct (leaf_matches (v_ap m1 a)) as [found|]; cbn [bind]; [|reflexivity].
    pose proof (ok_str_ext _ _ _ _ _ X (r_latest_ok m d OD)) as OL. pose proof (v_str_ext L n0 m m1 _ X (r_latest_ok m d OD)) as VL.
    change (dr_tbs (v_dir m d)) with (v_tbs m (rd_tbs d)). change (dr_useTBs (v_dir m d)) with (rd_useTBs d).
    unfold v_tbs at 1. rewrite map_get_v.
    assert (TB : forall tb, (if rd_useTBs d then map_get beq name (rd_tbs d) else None) = Some tb -> ok_tb m tb).
    { intros tb. destruct (rd_useTBs d); [|discriminate]. apply (map_get_ok beq (ok_tb m)). exact OT. }
    assert (TE : (if rd_useTBs d then option_map (v_tb m) (map_get beq name (rd_tbs d)) else None) = option_map (v_tb m) (if rd_useTBs d then map_get beq name (rd_tbs d) else None)) by (destruct (rd_useTBs d); reflexivity).
    rewrite TE. clear TE. destruct found.
    { eexists d, _, m1. split; [reflexivity|]. split; [exact X|]. split; [exact OD1|]. split; [split; [constructor; [exact Fa|constructor]|split; [constructor; [exact OL|constructor]|discriminate]]|].
      split; [exact VD|]. cbn [v_resp map option_map]. rewrite VL. reflexivity. }
    destruct (if rd_useTBs d then map_get beq name (rd_tbs d) else None) as [tb|]; cbn [option_map].
    { specialize (TB tb eq_refl). eexists d, _, m1. split; [reflexivity|]. split; [exact X|]. split; [exact OD1|].
      split; [split; [constructor; [exact Fa|constructor]|split; [constructor; [exact OL|constructor]|intros b Hb; injection Hb as <-; eapply ok_tb_ext; eassumption]]|].
      split; [exact VD|]. cbn [v_resp map option_map]. rewrite VL, (v_tb_ext m m1 tb X (Gs_vs _ _ _ _ TB)). reflexivity. }
    clear TB. assert (N1 : n0 <= length m1) by (apply ext_len in X; lia). cbv zeta. pose proof (G_ext _ _ _ _ _ X GK) as GK1.
    destruct (if rd_useTBs d then let '(tb, m) := r_NewTB d name key m1 in (Some tb, m) else (None, m1)) as [tb m2] eqn:ET.
    assert (PT : ext m1 m2 /\ (forall b, tb = Some b -> ok_tb m2 b) /\ (if rd_useTBs d then Some (NewTB (v_dir m d) name (rd m key)) else None) = option_map (v_tb m2) tb).
    { destruct (rd_useTBs d).
      - destruct (r_NewTB d name key m1) as [b m2'] eqn:EB. injection ET as <- <-. destruct (NewTB_done _ _ _ _ _ _ N1 OD1 GK1 EB) as (XB & OB & _ & VB).
        split; [exact XB|]. split; [intros b0 H; injection H as <-; exact OB|]. rewrite VD, (rd_ext m m1 _ X (G_vs _ _ _ _ GK)) in VB. cbn [option_map]. rewrite VB. reflexivity.
      - injection ET as <- <-. split; [apply ext_refl|]. split; [discriminate|reflexivity]. }
    destruct PT as (X2 & OB & ->). clear ET. assert (N2 : n0 <= length m2) by (apply ext_len in X2; lia). assert (X02 : ext m m2) by (eapply ext_trans; eassumption).
    pose proof (PAD_Set_done growth L n0 (rd_pad d) r name key m2 N2 (ok_pad_ext _ _ _ _ _ X02 OP) (vs_ext _ _ _ X02 (G_vs _ _ _ _ GK))) as D.
    rewrite (v_pad_ext L n0 m m2 _ X02 OP), (rd_ext m m2 _ X02 (G_vs _ _ _ _ GK)) in D.
    destruct (PAD_Set (v_pad m (rd_pad d)) r name (rd m key)) as [o|]; cbn [bind]; [|rewrite D; reflexivity].
    destruct D as (o' & m3 & -> & X3 & D). cbn [bind]. assert (X03 : ext m m3) by (eapply ext_trans; eassumption). assert (X13 : ext m1 m3) by (eapply ext_trans; eassumption).
    destruct o' as [p'|].
    2:{ subst o. exists d, (RErr ErrDirectory), m3. split; [reflexivity|]. split; [exact X03|]. split; [eapply ok_dir_ext; eassumption|]. split; [exact I|]. split; [apply v_dir_ext; assumption|reflexivity]. }
    destruct D as [OP3 ->]. eexists _, _, m3. split; [reflexivity|]. split; [exact X03|].
    assert (OTB : forall b, tb = Some b -> ok_tb m3 b) by (intros b Hb; eapply ok_tb_ext; [exact X3|apply OB; exact Hb]).
    assert (VTB : option_map (v_tb m3) tb = option_map (v_tb m2) tb).
    { destruct tb as [b|]; cbn [option_map]; [|reflexivity]. rewrite (v_tb_ext m2 m3 b X3); [reflexivity|]. apply (Gs_vs Lt n0). apply OB. reflexivity. }
    pose proof (ok_tbs_ext m m3 _ X03 OT) as OT3. split.
    { split; [exact OP3|]. split; [exact (G_ext _ _ _ _ _ X03 OV)|]. cbn [rd_tbs]. destruct tb as [b|]; [|exact OT3].
      unfold map_set. constructor; [apply OTB; reflexivity|]. apply (map_del_ok beq (ok_tb m3)). exact OT3. }
    split; [split; [constructor; [exact (ok_ap_ext m1 m3 a X13 Fa)|constructor]|split; [constructor; [|constructor]|exact OTB]]; destruct OP3 as (_ & _ & _ & _ & H & _); exact H|].
    rewrite <- VTB. split.
    - unfold v_dir. cbn [rd_pad rd_useTBs rd_tbs rd_pol dr_pol dr_useTBs]. f_equal.
      + destruct tb as [b|]; cbn [option_map]; [|apply v_tbs_ext; assumption].
        unfold v_tbs, map_set. cbn [map fst snd]. rewrite <- map_del_v. f_equal. f_equal. apply v_tbs_ext; assumption.
      + unfold v_pol. rewrite (rd_ext m m3 _ X03 (G_vs _ _ _ _ OV)). reflexivity.
    - cbn [v_resp map option_map]. rewrite (v_ap_ext m1 m3 a X13 (Gs_vs _ _ _ _ Fa)). reflexivity.
  Qed.
End Dir.

(** ** Calls *)
Lemma call_done growth L Lt n0 {C : Crypto} d c m : incl L Lt -> n0 <= length m -> ok_dir L Lt n0 m d -> Forall (G Lt n0 m) (args c) ->
  match v_call (v_dir m d) (read_call m c) with
  | Panic => r_call growth d c m = Panic
  | Ok (vd, vo) => exists d' o m', r_call growth d c m = Ok (d', o, m') /\ ext m m' /\ ok_dir L Lt n0 m' d' /\
      (forall r, o = Some r -> ok_resp L Lt n0 m' r) /\ (c = CUpdate -> rd_tbs d' = []) /\ v_dir m' d' = vd /\ option_map (v_resp m') o = vo
  end.
Proof.
  intros HL N OD FA. destruct c as [r nm k|nm|nm e|nm s e|s e| |dl]; cbn [read_call v_call r_call args] in *.
  - pose proof (Register_done growth L Lt n0 HL d r nm k m N OD (Forall_inv FA)) as D. destruct (Register (v_dir m d) r nm (rd m k)) as [[vd v]|]; cbn [bind]; [|rewrite D; reflexivity].
    destruct D as (d' & rs & m' & -> & X & OD' & OR & VD & VR). cbn [bind]. exists d', (Some rs), m'. split; [reflexivity|]. split; [exact X|]. split; [exact OD'|].
    split; [intros r0 H; injection H as <-; exact OR|]. split; [discriminate|]. split; [exact VD|]. cbn [option_map]. rewrite VR. reflexivity.
  - pose proof (KeyLookup_done L Lt n0 d nm m N OD) as D. destruct (KeyLookup (v_dir m d) nm) as [v|]; cbn [bind]; [|rewrite D; reflexivity].
    destruct D as (rs & m' & -> & X & OR & VR). cbn [bind]. exists d, (Some rs), m'. split; [reflexivity|]. split; [exact X|]. split; [eapply ok_dir_ext; eassumption|].
    split; [intros r0 H; injection H as <-; exact OR|]. split; [discriminate|]. split; [eapply v_dir_ext; eassumption|]. cbn [option_map]. rewrite VR. reflexivity.
  - pose proof (KeyLookupInEpoch_done L Lt n0 d nm e m N OD) as D. destruct (KeyLookupInEpoch (v_dir m d) nm e) as [v|]; cbn [bind]; [|rewrite D; reflexivity].
    destruct D as (rs & m' & -> & X & OR & VR). cbn [bind]. exists d, (Some rs), m'. split; [reflexivity|]. split; [exact X|]. split; [eapply ok_dir_ext; eassumption|].
    split; [intros r0 H; injection H as <-; exact OR|]. split; [discriminate|]. split; [eapply v_dir_ext; eassumption|]. cbn [option_map]. rewrite VR. reflexivity.
  - pose proof (Monitor_done L Lt n0 d nm s e m N OD) as D. destruct (Monitor (v_dir m d) nm s e) as [v|]; cbn [bind]; [|rewrite D; reflexivity].
    destruct D as (rs & m' & -> & X & OR & VR). cbn [bind]. exists d, (Some rs), m'. split; [reflexivity|]. split; [exact X|]. split; [eapply ok_dir_ext; eassumption|].
    split; [intros r0 H; injection H as <-; exact OR|]. split; [discriminate|]. split; [eapply v_dir_ext; eassumption|]. cbn [option_map]. rewrite VR. reflexivity.
  - pose proof (GetSTRHistory_done L Lt n0 d s e m OD) as D. destruct (GetSTRHistory (v_dir m d) s e) as [v|]; cbn [bind]; [|rewrite D; reflexivity].
    destruct D as (rs & -> & OR & VR). cbn [bind]. exists d, (Some rs), m. split; [reflexivity|]. split; [apply ext_refl|]. split; [exact OD|].
    split; [intros r0 H; injection H as <-; exact OR|]. split; [discriminate|]. split; [reflexivity|]. cbn [option_map]. rewrite VR. reflexivity.
  - destruct (r_Dir_Update growth d m) as [d' m'] eqn:E. destruct (Dir_Update_done growth L Lt n0 d m d' m' N OD E) as (X & OD' & TB & VD).
    exists d', None, m'. split; [reflexivity|]. split; [exact X|]. split; [exact OD'|]. split; [discriminate|]. split; [intros _; exact TB|]. split; [exact VD|reflexivity].
  - destruct (SetPolicies_done L Lt n0 d dl m OD) as [OD' VD]. exists (r_SetPolicies d dl), None, m. split; [reflexivity|]. split; [apply ext_refl|]. split; [exact OD'|].
    split; [discriminate|]. split; [discriminate|]. split; [exact VD|reflexivity].
Qed.

Lemma G_of L n0 m s : vs m s -> incl (arrays [s]) L -> G L n0 m s.
Proof. intros V I. split; [exact V|]. intros a Ia. left. apply I. exact Ia. Qed.
Lemma Gs_of L n0 m l : Forall (vs m) l -> incl (arrays l) L -> Forall (G L n0 m) l.
Proof.
  induction l as [|s l IH]; intros F I; [constructor|]. constructor.
  - apply G_of; [exact (Forall_inv F)|]. intros a Ia. apply I. unfold arrays in *. cbn [flat_map] in *. rewrite app_nil_r in Ia. apply in_or_app. left. exact Ia.
  - apply IH; [exact (Forall_inv_tail F)|]. intros a Ia. apply I. unfold arrays in *. cbn [flat_map]. apply in_or_app. right. exact Ia.
Qed.
Lemma Gs_arrays L n0 m l a : Forall (G L n0 m) l -> In a (arrays l) -> In a L \/ n0 <= a.
Proof.
  induction l as [|s l IH]; intros F I; [destruct I|]. unfold arrays in I. cbn [flat_map] in I. apply in_app_or in I as [I|I].
  - apply (proj2 (Forall_inv F)). unfold arrays. cbn [flat_map]. rewrite app_nil_r. exact I.
  - apply IH; [exact (Forall_inv_tail F)|exact I].
Qed.
Lemma vs_arrays m l a : Forall (vs m) l -> In a (arrays l) -> a < length m.
Proof.
  induction l as [|s l IH]; intros F I; [destruct I|]. unfold arrays in I. cbn [flat_map] in I. apply in_app_or in I as [I|I].
  - pose proof (Forall_inv F) as V. destruct s as [s|]; [|destruct I]. destruct I as [<-|[]]. exact (proj1 V).
  - apply IH; [exact (Forall_inv_tail F)|exact I].
Qed.
Lemma arrays_app l l' : arrays (l ++ l') = arrays l ++ arrays l'.
Proof. apply flat_map_app. Qed.

(** What the dictionary and the policies refer to, and what the bindings refer to. *)
Lemma ok_dir_iff L Lt n0 m d : ok_dir L Lt n0 m d <->
  Forall (G L n0 m) (rq_vrf (rd_pol d) :: ss_pad (rd_pad d)) /\ Forall (G Lt n0 m) (flat_map (fun x => ss_tb (snd x)) (rd_tbs d)) /\ nn_pad (rd_pad d).
Proof. unfold ok_dir. rewrite ok_pad_iff, Forall_cons_iff, Forall_flat. unfold ok_tb. tauto. Qed.
Lemma ok_dir_vs L Lt n0 m d : ok_dir L Lt n0 m d -> wf m d.
Proof.
  rewrite ok_dir_iff. intros (H1 & H2 & H3). split; [|exact H3]. unfold ss_dir. apply Forall_cons_iff in H1 as [H0 H1].
  constructor; [apply (G_vs _ _ _ _ H0)|]. apply Forall_app. split; [apply (Gs_vs _ _ _ _ H1)|apply (Gs_vs _ _ _ _ H2)].
Qed.
Lemma wf_ok_dir L Lt n0 m d : wf m d -> incl (arrays (rq_vrf (rd_pol d) :: ss_pad (rd_pad d))) L ->
  incl (arrays (flat_map (fun x => ss_tb (snd x)) (rd_tbs d))) Lt -> ok_dir L Lt n0 m d.
Proof.
  intros [F NN] I1 I2. apply ok_dir_iff. unfold ss_dir in F. rewrite app_comm_cons in F. apply Forall_app in F as [F1 F2].
  split; [apply Gs_of; assumption|]. split; [apply Gs_of; assumption|exact NN].
Qed.
Lemma ok_resp_G L Lt n0 m r : incl L Lt -> ok_resp L Lt n0 m r -> Forall (G Lt n0 m) (ss_resp r).
Proof.
  intros I. assert (W : forall s, G L n0 m s -> G Lt n0 m s) by (intro s; apply G_weaken; intros a [H|H] _; [left; apply I; exact H|right; exact H]).
  assert (SS : forall l, Forall (ok_str L n0 m) l -> Forall (G Lt n0 m) (flat_map ss_str l)).
  { intros l H. apply Forall_flat. revert H. apply Forall_impl. intros s Hs. apply ok_str_iff in Hs as [Hs _]. revert Hs. apply Forall_impl. exact W. }
  destruct r as [e|e aps strs tb|strs]; cbn [ok_resp ss_resp]; [constructor| |apply SS].
  intros (H1 & H2 & H3). apply Forall_app. split; [|apply Forall_app; split; [apply SS; exact H2|]].
  - apply Forall_flat. revert H1. apply Forall_impl. intros a Ha. revert Ha. unfold ok_ap. apply Forall_impl. exact W.
  - destruct tb as [b|]; [exact (H3 b eq_refl)|constructor].
Qed.

(** ** Reading depends only on the slices *)
Section Same.
  Variables m m' : mem.
  Definition same (s : gs) : Prop := rd m' s = rd m s.
  Lemma v_hash_same s : same s -> v_hash m' s = v_hash m s.
  Proof. destruct s as [s|]; cbn [v_hash option_map]; [|reflexivity]. unfold same. intros ->. reflexivity. Qed.
  Lemma v_node_same n : Forall same (ss_node n) -> v_node m' n = v_node m n.
  Proof.
    induction n as [lvl i|lvl d|lvl lh rh l IHl r IHr]; cbn [ss_node v_node]; intro F.
    - rewrite (Forall_inv F). reflexivity.
    - unfold ss_leaf in F. apply Forall_cons_iff in F as [F1 F]. apply Forall_cons_iff in F as [F2 F]. apply Forall_cons_iff in F as [F3 F]. apply Forall_cons_iff in F as [F4 _].
      unfold v_leaf. rewrite F1, F2, F3, F4. reflexivity.
    - apply Forall_cons_iff in F as [F1 F]. apply Forall_cons_iff in F as [F2 F]. apply Forall_app in F as [F3 F4].
      rewrite (v_hash_same _ F1), (v_hash_same _ F2), IHl, IHr by assumption. reflexivity.
  Qed.
  Lemma v_tree_same t : Forall same (ss_tree t) -> v_tree m' t = v_tree m t.
  Proof. unfold ss_tree, v_tree. intro F. apply Forall_cons_iff in F as [F1 F]. apply Forall_cons_iff in F as [F2 F]. rewrite F1, F2, (v_node_same _ F). reflexivity. Qed.
  Lemma v_str_same s : Forall same (ss_str s) -> v_str m' s = v_str m s.
  Proof.
    unfold ss_str, v_str, v_pol. intro F. apply Forall_cons_iff in F as [F1 F]. apply Forall_cons_iff in F as [F2 F]. apply Forall_cons_iff in F as [F3 F]. apply Forall_cons_iff in F as [F4 F].
    rewrite F1, F2, F3, F4, (v_tree_same _ F). reflexivity.
  Qed.
  Lemma v_pad_same p : Forall same (ss_pad p) -> v_pad m' p = v_pad m p.
  Proof.
    unfold ss_pad, v_pad, v_pol. intro F. apply Forall_cons_iff in F as [F1 F]. apply Forall_cons_iff in F as [F2 F]. apply Forall_cons_iff in F as [F3 F].
    apply Forall_app in F as [F4 F]. apply Forall_app in F as [F5 F6]. rewrite F1, F2, F3, (v_tree_same _ F4), (v_str_same _ F5).
    assert (SN : v_snap m' (rp_snap p) = v_snap m (rp_snap p)).
    { unfold v_snap. apply map_ext_in. intros x I. rewrite v_str_same; [reflexivity|]. apply Forall_flat in F6. exact (proj1 (Forall_forall _ _) F6 x I). }
    rewrite SN. reflexivity.
  Qed.
  Lemma v_tb_same b : Forall same (ss_tb b) -> v_tb m' b = v_tb m b.
  Proof. unfold ss_tb, v_tb. intro F. apply Forall_cons_iff in F as [F1 F]. apply Forall_cons_iff in F as [F2 F]. apply Forall_cons_iff in F as [F3 _]. rewrite F1, F2, F3. reflexivity. Qed.
  Lemma v_dir_same d : Forall same (ss_dir d) -> v_dir m' d = v_dir m d.
  Proof.
    unfold ss_dir, v_dir, v_pol. intro F. apply Forall_cons_iff in F as [F1 F]. apply Forall_app in F as [F2 F3]. rewrite F1, (v_pad_same _ F2).
    assert (TB : v_tbs m' (rd_tbs d) = v_tbs m (rd_tbs d)).
    { unfold v_tbs. apply map_ext_in. intros x I. rewrite v_tb_same; [reflexivity|]. apply Forall_flat in F3. exact (proj1 (Forall_forall _ _) F3 x I). }
    rewrite TB. reflexivity.
  Qed.
  Lemma v_ap_same a : Forall same (ss_ap a) -> v_ap m' a = v_ap m a.
  Proof.
    unfold ss_ap, v_ap. intro F. apply Forall_cons_iff in F as [F1 F]. apply Forall_cons_iff in F as [F2 F]. apply Forall_cons_iff in F as [F3 F]. rewrite F1, F2, F3.
    destruct (ra_leaf a) as [n|]; cbn [option_map]; [|reflexivity]. unfold ss_pn in F. apply Forall_cons_iff in F as [F4 F]. apply Forall_cons_iff in F as [F5 F].
    unfold v_pn. rewrite F4, (v_hash_same _ F5). destruct (rn_com n) as [[s c]|]; cbn [option_map fst snd] in *; [|reflexivity].
    apply Forall_cons_iff in F as [F6 F]. apply Forall_cons_iff in F as [F7 F]. rewrite F6, F7. reflexivity.
  Qed.
  Lemma v_resp_same r : Forall same (ss_resp r) -> v_resp m' r = v_resp m r.
  Proof.
    destruct r as [e|e aps strs tb|strs]; cbn [ss_resp v_resp]; intro F; [reflexivity| |].
    - apply Forall_app in F as [F1 F]. apply Forall_app in F as [F2 F3]. apply Forall_flat in F1. apply Forall_flat in F2.
      assert (E1 : map (fun a => Some (v_ap m' a)) aps = map (fun a => Some (v_ap m a)) aps)
        by (apply map_ext_in; intros a I; rewrite v_ap_same; [reflexivity|]; exact (proj1 (Forall_forall _ _) F1 a I)).
      assert (E2 : map (fun s => Some (NewDirSTR (v_str m' s))) strs = map (fun s => Some (NewDirSTR (v_str m s))) strs)
        by (apply map_ext_in; intros a I; rewrite v_str_same; [reflexivity|]; exact (proj1 (Forall_forall _ _) F2 a I)).
      rewrite E1, E2. destruct tb as [b|]; cbn [option_map]; [rewrite (v_tb_same _ F3)|]; reflexivity.
    - apply Forall_flat in F. f_equal. apply map_ext_in; intros a I; rewrite v_str_same; [reflexivity|]; exact (proj1 (Forall_forall _ _) F a I).
  Qed.
End Same.
Lemma ext_same m m' l : ext m m' -> Forall (vs m) l -> Forall (same m m') l.
Proof. intros E. apply Forall_impl. intros s V. apply rd_ext; assumption. Qed.
Lemma write_same a off xs m l : ~ In a (arrays l) -> Forall (same m (write a off xs m)) l.
Proof.
  induction l as [|s l IH]; intro H; [constructor|]. unfold arrays in H. cbn [flat_map] in H. constructor.
  - apply rd_write_other. intro I. apply H. apply in_or_app. left. unfold arrays in I. cbn [flat_map] in I. rewrite app_nil_r in I. exact I.
  - apply IH. intro I. apply H. apply in_or_app. right. exact I.
Qed.
Lemma write_nth_len a off xs m b : a < length m -> off + length xs <= length (nth a m []) -> length (nth b (write a off xs m) []) = length (nth b m []).
Proof.
  intros A O. unfold write. destruct (Nat.eq_dec a b) as [<-|NE]; [|rewrite set_nth_other by exact NE; reflexivity].
  rewrite set_nth_same by exact A. rewrite !app_length, firstn_length, skipn_length. lia.
Qed.
Lemma write_vs a off xs m s : a < length m -> off + length xs <= length (nth a m []) -> vs m s -> vs (write a off xs m) s.
Proof. intros A O. destruct s as [s|]; cbn [vs]; [|auto]. intros (H1 & H2 & H3). rewrite write_len, write_nth_len by assumption. auto. Qed.
Lemma write_wf a off xs m d : a < length m -> off + length xs <= length (nth a m []) -> wf m d -> wf (write a off xs m) d.
Proof. intros A O [F NN]. split; [|exact NN]. revert F. apply Forall_impl. intro s. apply write_vs; assumption. Qed.
