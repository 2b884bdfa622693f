(** The handlers' step-by-step programs (Server.v) do, when run alone, exactly
    what the directory functions (Directory.v) do; those run under the read
    lock never write. *)
From Coq Require Import List NArith ZArith Lia Bool Arith.
From Verif Require Import Base Utils Crypto Tree STR PAD Protocol Directory DirSpec Json Wire Conc Server.
Import ListNotations.

Section Facts.
  Context {C : Crypto}.

  Lemma run_result {A} (x : result A) (k : A -> P) d :
    run (k_result x k) d = (do a <- x; run (k a) d).
  Proof. destruct x; reflexivity. Qed.

  Lemma run_GetSTR e (k : _ -> P) d : run (k_GetSTR e k) d = run (k (GetSTR (dr_pad d) e)) d.
  Proof. unfold k_GetSTR, k_latest, GetSTR. cbn [run]. destruct (N.leb _ e); reflexivity. Qed.

  Lemma run_LookupInEpoch n e (k : _ -> P) d :
    run (k_LookupInEpoch n e k) d = (do o <- LookupInEpoch (dr_pad d) n e; run (k o) d).
  Proof.
    unfold k_LookupInEpoch. rewrite run_GetSTR. unfold LookupInEpoch.
    destruct (GetSTR (dr_pad d) e) as [s|]; [|reflexivity].
    cbn [run]. destruct (vrf_prove (pd_vrf (dr_pad d)) n) as [l pr]. rewrite run_result.
    destruct (Get (st_tree s) l); reflexivity.
  Qed.

  Lemma run_Lookup n (k : _ -> P) d : run (k_Lookup n k) d = (do o <- Lookup (dr_pad d) n; run (k o) d).
  Proof. unfold k_Lookup, k_latest. cbn [run]. rewrite run_LookupInEpoch. reflexivity. Qed.

  Lemma run_LatestSTR (k : _ -> P) d : run (k_LatestSTR k) d = run (k (LatestSTR d)) d.
  Proof. reflexivity. Qed.

  Lemma run_tbs n (k : _ -> P) d :
    run (k_tbs n k) d = run (k (if dr_useTBs d then map_get beq n (dr_tbs d) else None)) d.
  Proof. unfold k_tbs. cbn [run]. destruct (dr_useTBs d); reflexivity. Qed.

  Lemma run_torn l (k : P) d d' : (forall x, run k x = run k d) -> run (k_torn l k) d' = run k d.
  Proof. intro H. revert d'. induction l as [|x l IH]; intro d'; cbn [k_torn fold_right run]; [apply H|apply IH]. Qed.

  Lemma bind_ok_r {A B} (x : result A) (f : A -> B) (g : B -> result (Directory * option Response)) :
    (do b <- (do a <- x; Ok (f a)); g b) = (do a <- x; g (f a)).
  Proof. destruct x; reflexivity. Qed.

  Definition some_answer (x : result Response) (d : Directory) : result (Directory * option Response) :=
    do a <- x; Ok (d, Some a).

  Lemma run_KeyLookup n d : run (p_KeyLookup n) d = some_answer (KeyLookup d n) d.
  Proof.
    unfold p_KeyLookup, KeyLookup, some_answer. destruct (is_nil n); [reflexivity|].
    rewrite run_Lookup. destruct (Lookup (dr_pad d) n) as [[ap|]|]; cbn [bind]; try reflexivity.
    rewrite run_result. destruct (leaf_matches ap) as [[]|]; cbn [bind]; try reflexivity.
    rewrite run_tbs. destruct (if dr_useTBs d then map_get beq n (dr_tbs d) else None); reflexivity.
  Qed.

  Lemma run_strs eps (k : _ -> P) d :
    run (k_strs eps k) d = (do l <- mapM (fun ep => NewDirSTR' (GetSTR (dr_pad d) ep)) eps; run (k l) d).
  Proof.
    revert k; induction eps as [|ep eps IH]; intro k; cbn [k_strs mapM]; [reflexivity|].
    rewrite run_GetSTR, run_result. destruct (NewDirSTR' (GetSTR (dr_pad d) ep)) as [s|]; cbn [bind]; [|reflexivity].
    rewrite IH. destruct (mapM _ eps); reflexivity.
  Qed.

  Lemma run_KeyLookupInEpoch n e d : run (p_KeyLookupInEpoch n e) d = some_answer (KeyLookupInEpoch d n e) d.
  Proof.
    unfold p_KeyLookupInEpoch, KeyLookupInEpoch, some_answer, k_latest, latestEpoch. cbn [run].
    destruct (is_nil n || N.ltb _ e); [reflexivity|]. cbn [run].
    rewrite run_LookupInEpoch. destruct (LookupInEpoch (dr_pad d) n e) as [[ap|]|]; cbn [bind]; try reflexivity.
    rewrite run_result. destruct (epochs e _) as [eps|]; cbn [bind]; [|reflexivity].
    rewrite run_strs. destruct (mapM _ eps) as [strs|]; cbn [bind]; [|reflexivity].
    rewrite run_result. destruct (leaf_matches ap) as [[]|]; reflexivity.
  Qed.

  Lemma run_monitor n eps (k : _ -> P) d :
    run (k_monitor n eps k) d = (do o <- monitor_loop d n eps; run (k o) d).
  Proof.
    revert k; induction eps as [|ep eps IH]; intro k; cbn [k_monitor monitor_loop]; [reflexivity|].
    rewrite run_LookupInEpoch. destruct (LookupInEpoch (dr_pad d) n ep) as [[ap|]|]; cbn [bind]; try reflexivity.
    rewrite run_GetSTR, run_result. destruct (NewDirSTR' _) as [s|]; cbn [bind]; [|reflexivity].
    rewrite IH. destruct (monitor_loop d n eps); reflexivity.
  Qed.

  Lemma run_Monitor n s e d : run (p_Monitor n s e) d = some_answer (Monitor d n s e) d.
  Proof.
    unfold p_Monitor, Monitor, some_answer, k_latest, latestEpoch. cbn [run].
    destruct (is_nil n || N.ltb _ s || N.ltb e s); [reflexivity|]. cbn [run].
    match goal with |- context [N.ltb ?a e] => set (L := a) end.
    assert (H : forall endEp, run (k_result (epochs s endEp) (fun eps => k_monitor n eps (fun o =>
        match o with
        | None => answer (NewErrorResponse ErrDirectory)
        | Some (aps, strs) => answer (NewMonitoringProof aps strs)
        end))) d =
      (do eps <- epochs s endEp; do o <- monitor_loop d n eps;
       Ok (d, Some match o with
              | None => NewErrorResponse ErrDirectory
              | Some (aps, strs) => NewMonitoringProof aps strs
              end))).
    { intro endEp. rewrite run_result. destruct (epochs s endEp) as [eps|]; cbn [bind]; [|reflexivity].
      rewrite run_monitor. destruct (monitor_loop d n eps) as [[[aps strs]|]|]; reflexivity. }
    assert (K : forall endEp, (do eps <- epochs s endEp; do o <- monitor_loop d n eps;
       Ok (d, Some match o with
              | None => NewErrorResponse ErrDirectory
              | Some (aps, strs) => NewMonitoringProof aps strs
              end)) =
       (do a <- (do eps <- epochs s endEp; do o <- monitor_loop d n eps;
              match o with
              | None => Ok (NewErrorResponse ErrDirectory)
              | Some (aps, strs) => Ok (NewMonitoringProof aps strs)
              end); Ok (d, Some a))).
    { intro endEp. destruct (epochs s endEp) as [eps|]; cbn [bind]; [|reflexivity].
      destruct (monitor_loop d n eps) as [[[aps strs]|]|]; reflexivity. }
    destruct (N.ltb L e); [cbn [run]|]; rewrite H; apply K.
  Qed.

  Lemma run_Register torn r n k d : run (p_Register torn r n k) d =
    (do (d', x) <- Register d r n k; Ok (d', Some x)).
  Proof.
    unfold p_Register, Register. destruct (is_nil n || is_nil k); [reflexivity|].
    rewrite run_Lookup. destruct (Lookup (dr_pad d) n) as [[ap|]|]; cbn [bind]; try reflexivity.
    rewrite run_result. destruct (leaf_matches ap) as [[]|]; cbn [bind]; try reflexivity.
    rewrite run_tbs. destruct (if dr_useTBs d then map_get beq n (dr_tbs d) else None); [reflexivity|].
    cbn [run]. rewrite run_result. destruct (PAD_Set (dr_pad d) r n k) as [[pad|]|]; cbn [bind]; [| |reflexivity].
    - rewrite run_torn with (d := d) by reflexivity. cbn [run].
      unfold w_pad. destruct (dr_useTBs d); reflexivity.
    - rewrite run_torn with (d := d) by reflexivity. reflexivity.
  Qed.

  Lemma run_clear (l : list (bytes * TemporaryBinding)) (d : Directory) : dr_tbs d = l ->
    run (fold_right (fun (x : bytes * TemporaryBinding) k => PutM (w_tbs (@tl _)) k) (Ret None) l) d
    = Ok (mkDirectory (dr_pad d) (dr_useTBs d) [] (dr_pol d), None : option Response).
  Proof.
    revert d; induction l as [|x l IH]; intros [p u t po] E; cbn in E |- *; subst t; [reflexivity|].
    rewrite IH; reflexivity.
  Qed.

  Lemma run_Update torn d : run (p_Update torn) d = Ok (Directory_Update d, None).
  Proof.
    unfold p_Update, Directory_Update, Update. cbn [run].
    destruct (evict (dr_pad d)) as [snap loaded]. cbn [run].
    set (d1 := w_pad _ (w_pad _ d)).
    change (pd_latest (dr_pad d1)) with (pd_latest (dr_pad d)).
    change (pd_sign (dr_pad d1)) with (pd_sign (dr_pad d)).
    change (pd_ad (dr_pad d1)) with (pd_ad (dr_pad d)).
    change (pd_tree (dr_pad d1)) with (pd_tree (dr_pad d)).
    destruct (signTreeRoot Policies_Serialize _ _ _ _ _) as [tree str].
    rewrite run_torn with (d := d1) by reflexivity. cbn [run].
    rewrite run_clear by reflexivity. subst d1. reflexivity.
  Qed.

  Lemma run_code p torn op d : run (srv_code p torn op) d = srv_sem p op d.
  Proof.
    destruct op as [addr msg r| |[dl|]]; cbn [srv_code srv_sem].
    - destruct (accept p addr msg) as [x|q]; [reflexivity|]. unfold p_Handle, HandleRequests.
      destruct (Z.eqb (q_type q) RegistrationType).
      { destruct (q_body q); try reflexivity. apply run_Register. }
      destruct (Z.eqb (q_type q) KeyLookupType).
      { destruct (q_body q); try reflexivity. rewrite run_KeyLookup. unfold some_answer. destruct (KeyLookup _ _); reflexivity. }
      destruct (Z.eqb (q_type q) KeyLookupInEpochType).
      { destruct (q_body q); try reflexivity. rewrite run_KeyLookupInEpoch. unfold some_answer. destruct (KeyLookupInEpoch _ _ _); reflexivity. }
      destruct (Z.eqb (q_type q) MonitoringType); [|reflexivity].
      destruct (q_body q); try reflexivity. rewrite run_Monitor. unfold some_answer. destruct (Monitor _ _ _ _); reflexivity.
    - apply run_Update.
    - reflexivity.
    - reflexivity.
  Qed.

  (** ** Readers do not write *)
  Notation wf := (@write_free (Directory) (option Response)).
  Lemma wf_result {A} (x : result A) (k : A -> P) : (forall a, wf (k a)) -> wf (k_result x k).
  Proof. destruct x; cbn; auto. Qed.
  Lemma wf_GetSTR e (k : _ -> P) : (forall a, wf (k a)) -> wf (k_GetSTR e k).
  Proof. intros H m. destruct (N.leb _ e); intro m'; apply H. Qed.
  Lemma wf_LookupInEpoch n e (k : _ -> P) : (forall a, wf (k a)) -> wf (k_LookupInEpoch n e k).
  Proof.
    intros H. apply wf_GetSTR. intros [s|]; [|apply H]. intro m.
    destruct (vrf_prove _ n). apply wf_result. intro; apply H.
  Qed.
  Lemma wf_KeyLookup n : wf (p_KeyLookup n).
  Proof.
    unfold p_KeyLookup. destruct (is_nil n); [exact I|]. intro m. apply wf_LookupInEpoch.
    intros [ap|]; [|exact I]. apply wf_result. intros [|]; [intro; exact I|].
    intro m'. destruct (dr_useTBs m'); [|intro; exact I].
    intro m''. destruct (map_get _ _ _); intro; exact I.
  Qed.
  Lemma wf_strs eps (k : _ -> P) : (forall a, wf (k a)) -> wf (k_strs eps k).
  Proof.
    revert k; induction eps as [|ep eps IH]; intros k H; cbn [k_strs]; [apply H|].
    apply wf_GetSTR; intro; apply wf_result; intro. apply IH. intro; apply H.
  Qed.
  Lemma wf_KeyLookupInEpoch n e : wf (p_KeyLookupInEpoch n e).
  Proof.
    intro m. cbv beta. destruct (is_nil n || _); [exact I|]. intro m'. cbv beta zeta. apply wf_LookupInEpoch.
    intros [ap|]; [|exact I]. apply wf_result; intro. apply wf_strs; intro. apply wf_result; intros [|]; exact I.
  Qed.
  Lemma wf_monitor n eps (k : _ -> P) : (forall a, wf (k a)) -> wf (k_monitor n eps k).
  Proof.
    revert k; induction eps as [|ep eps IH]; intros k H; cbn [k_monitor]; [apply H|].
    apply wf_LookupInEpoch; intros [ap|]; [|apply H]. apply wf_GetSTR; intro; apply wf_result; intro.
    apply IH. intro; apply H.
  Qed.
  Lemma wf_Monitor n s e : wf (p_Monitor n s e).
  Proof.
    intro m. cbv beta. destruct (is_nil n || _ || _); [exact I|]. intro m'. cbv beta zeta.
    assert (H : forall x, wf (k_result (epochs s x) (fun eps => k_monitor n eps (fun o =>
        match o with
        | None => answer (NewErrorResponse ErrDirectory)
        | Some (aps, strs) => answer (NewMonitoringProof aps strs)
        end)))).
    { intro x. apply wf_result; intro. apply wf_monitor. intros [[aps strs]|]; exact I. }
    destruct (N.ltb _ e); [intro; apply H|apply H].
  Qed.

  Lemma readers_pure p torn op : srv_reader p op = true -> wf (srv_code p torn op).
  Proof.
    destruct op as [addr msg r| |dl]; cbn [srv_reader srv_code]; try discriminate.
    destruct (accept p addr msg) as [x|q]; [discriminate|]. unfold takes_read_lock, p_Handle.
    destruct (Z.eqb (q_type q) RegistrationType) eqn:E.
    { apply Z.eqb_eq in E. rewrite E. discriminate. }
    intros _. destruct (Z.eqb (q_type q) KeyLookupType).
    { destruct (q_body q); try exact I. apply wf_KeyLookup. }
    destruct (Z.eqb (q_type q) KeyLookupInEpochType).
    { destruct (q_body q); try exact I. apply wf_KeyLookupInEpoch. }
    destruct (Z.eqb (q_type q) MonitoringType); [|exact I].
    destruct (q_body q); try exact I. apply wf_Monitor.
  Qed.

  Lemma direct_is_code p torn op r : srv_direct p op = Some r -> srv_code p torn op = Ret r.
  Proof.
    destruct op as [addr msg ?| |dl]; cbn [srv_direct srv_code]; try discriminate.
    destruct (accept p addr msg) as [x|q]; [|discriminate]. congruence.
  Qed.
End Facts.
