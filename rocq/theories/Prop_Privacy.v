(** C81: what the answers of the directory disclose about bindings of names
    the observer has not asked for.

    Reading guide ([Privacy.v], top).  [asked] is a set of VRF indices, those of
    the names the observer asks about.  [disguise vk asked hide]: [hide]
    exchanges names outside that set for others with the same index.
    [Forall2 (alike vk asked hide) ops ops']: the histories [ops] and [ops']
    consist of the same calls, except that registrations outside [asked] may
    use different names (with the same index), different keys and different
    salts, as long as the published commitment digest is the same.
    [ask d q]: the answer to a lookup, lookup in an epoch, monitoring,
    registration or STR-history request, or the latest STR. *)
From Coq Require Import List NArith ZArith Lia Bool Arith.
From Verif Require Import Base Utils Crypto Tree STR PAD PADSpec Protocol Directory DirSpec Privacy.
Import ListNotations.

(** Every answer about asked names is a function of the asked bindings, of the
    indices, and of the commitment digests: it is the same, byte for byte, in
    two histories that agree on those.  No assumption on the cryptography. *)
Theorem C81_blind : forall (C : Crypto) dl0 vk sk size r1 r2 asked hide ops ops' d,
  disguise vk asked hide -> Forall2 (alike vk asked hide) ops ops' ->
  dir_built dl0 vk sk size r1 r2 ops d ->
  exists d', dir_built dl0 vk sk size r1 r2 ops' d' /\
    forall q, about vk asked q -> ask d q = ask d' q.
Proof.
  intros C dl0 vk sk size r1 r2 asked hide ops ops' d D F (d0 & N & R).
  pose proof (run_like vk asked hide D ops ops' F d0 d0 (new_like vk asked hide dl0 sk size r1 r2 d0 N)) as L.
  rewrite R in L. destruct (dir_run d0 ops') as [d'|] eqn:R'; simpl in L; [|contradiction].
  exists d'. split; [exists d0; auto|]. intros q Q. apply (ask_like vk asked hide D d d' q L Q).
Qed.
Print Assumptions C81_blind.

(** The same for an observer of the whole history: the answers the observer
    gets while the histories go on (a query may follow any call) agree. *)
Theorem C81_whole_view : forall (C : Crypto) dl0 vk sk size r1 r2 asked hide ops ops' d,
  disguise vk asked hide -> Forall2 (alike vk asked hide) ops ops' ->
  dir_built dl0 vk sk size r1 r2 ops d ->
  forall i di, dir_built dl0 vk sk size r1 r2 (firstn i ops) di ->
  exists di', dir_built dl0 vk sk size r1 r2 (firstn i ops') di' /\
    forall q, about vk asked q -> ask di q = ask di' q.
Proof.
  intros C dl0 vk sk size r1 r2 asked hide ops ops' d D F B i di Bi.
  apply (C81_blind C dl0 vk sk size r1 r2 asked hide (firstn i ops) (firstn i ops') di D); auto.
  clear - F. revert i. induction F; intros [|i]; simpl; constructor; auto.
Qed.
Print Assumptions C81_whole_view.

(** The paths in an answer: that of the asked name opens its own commitment at
    most; a leaf of somebody else is shown without its value and without the
    salt.  (Temporary bindings in answers: C24.) *)
Definition paths_of (resp : Response) : list (option AuthPath) :=
  match r_df resp with Some (DProof (Some p)) => dp_ap p | _ => [] end.
Definition subject (q : query) : option bytes :=
  match q with
  | QLookup n | QLookupInEpoch n _ | QMonitor n _ _ | QRegister _ n _ => Some n
  | _ => None
  end.
Definition discreet {C : Crypto} (i : bytes) (o : option AuthPath) : Prop :=
  exists ap leaf, o = Some ap /\ ap_lookup ap = i /\ ap_leaf ap = Some leaf /\
    (pn_index leaf = i \/
     (pn_value leaf = None /\ (pn_com leaf = None \/ exists v, pn_com leaf = Some (mkCommit [] v)))).

Lemma get_discreet {C : Crypto} t i ap : Get t i = Ok ap -> discreet i (Some ap).
Proof.
  unfold Get. destruct (get_loop (ToBits i) 0 (t_root t) []) as [[p n]|]; [|discriminate]. cbn [bind].
  destruct n as [l x|l x|]; cbn [proof_leaf bind].
  - intros [= <-]. eexists _, _. repeat split; simpl. right. auto.
  - destruct (beq (l_index x) i) eqn:B; cbn [bind]; intros [= <-]; eexists _, _; repeat split; simpl.
    + left. apply beq_eq, B.
    + right. split; [reflexivity|]. right. eexists. reflexivity.
  - discriminate.
Qed.
Lemma lookup_discreet {C : Crypto} (p : PAD Policies) n e ap : LookupInEpoch p n e = Ok (Some ap) ->
  discreet (idx_of (pd_vrf p) n) (Some ap).
Proof.
  unfold LookupInEpoch. destruct (GetSTR p e) as [s|]; [|discriminate].
  unfold idx_of. destruct (vrf_prove (pd_vrf p) n) as [i v]. cbn [fst].
  destruct (Get (st_tree s) i) as [x|] eqn:G; [|discriminate]. cbn [bind]. intros [= <-].
  apply get_discreet in G. destruct G as (ap & leaf & E & LK & LF & X). injection E as <-.
  eexists _, leaf. split; [reflexivity|]. cbn [ap_lookup ap_leaf]. auto.
Qed.
Lemma monitor_discreet {C : Crypto} (d : Directory) n eps : forall aps strs,
  monitor_loop d n eps = Ok (Some (aps, strs)) -> Forall (discreet (idx_of (pd_vrf (dr_pad d)) n)) (map Some aps).
Proof.
  induction eps as [|e eps IH]; intros aps strs; cbn [monitor_loop].
  - intros [= <- <-]. constructor.
  - destruct (LookupInEpoch (dr_pad d) n e) as [[ap|]|] eqn:L; cbn [bind]; try discriminate.
    destruct (NewDirSTR' _) as [s|]; cbn [bind]; try discriminate.
    destruct (monitor_loop d n eps) as [[[aps' strs']|]|] eqn:M; cbn [bind option_map]; try discriminate.
    cbn [fst snd]. intros [= <- <-]. cbn [map]. constructor; [apply lookup_discreet in L; exact L|].
    apply (IH aps' strs'). reflexivity.
Qed.

Theorem C81_no_opening : forall (C : Crypto) (d : Directory) q n resp,
  subject q = Some n -> ask d q = Ok resp ->
  Forall (discreet (idx_of (pd_vrf (dr_pad d)) n)) (paths_of resp).
Proof.
  intros C d q n resp S. destruct q as [m|m e|m x y|r m k|x y|]; cbn [subject] in S; try discriminate S;
    injection S as ->; cbn [ask].
  - unfold KeyLookup, Lookup. destruct (is_nil n); [intros [= <-]; constructor|].
    destruct (LookupInEpoch (dr_pad d) n _) as [[ap|]|] eqn:L; cbn [bind]; try discriminate; [|intros [= <-]; constructor].
    apply lookup_discreet in L. destruct (leaf_matches ap) as [[|]|]; cbn [bind]; try discriminate.
    + intros [= <-]. cbn. repeat constructor. exact L.
    + destruct (if dr_useTBs d then _ else _); intros [= <-]; cbn; repeat constructor; exact L.
  - unfold KeyLookupInEpoch. destruct (_ || _); [intros [= <-]; constructor|].
    destruct (LookupInEpoch (dr_pad d) n _) as [[ap|]|] eqn:L; cbn [bind]; try discriminate; [|intros [= <-]; constructor].
    apply lookup_discreet in L. destruct (epochs _ _); cbn [bind]; try discriminate.
    destruct (mapM _ _); cbn [bind]; try discriminate.
    destruct (leaf_matches ap) as [[|]|]; cbn [bind]; try discriminate; intros [= <-]; cbn; repeat constructor; exact L.
  - unfold Monitor. destruct (_ || _); [intros [= <-]; constructor|].
    destruct (epochs _ _); cbn [bind]; try discriminate.
    destruct (monitor_loop d n a) as [[[aps strs]|]|] eqn:M; cbn [bind]; try discriminate; intros [= <-]; [|constructor].
    apply monitor_discreet in M. exact M.
  - unfold Register, Lookup. destruct (_ || _); [intros [= <-]; constructor|].
    destruct (LookupInEpoch (dr_pad d) n _) as [[ap|]|] eqn:L; cbn [bind]; try discriminate; [|intros [= <-]; constructor].
    apply lookup_discreet in L. destruct (leaf_matches ap) as [[|]|]; cbn [bind]; try discriminate.
    + intros [= <-]. cbn. repeat constructor. exact L.
    + destruct (if dr_useTBs d then map_get _ _ _ else _); cbn [bind]; [intros [= <-]; cbn; repeat constructor; exact L|].
      destruct (PAD_Set _ _ _ _) as [[pad|]|]; cbn [bind]; try discriminate; intros [= <-]; [|constructor].
      cbn. repeat constructor. exact L.
Qed.
Print Assumptions C81_no_opening.

(** ** Non-vacuity.  A hash and a VRF that only look at the sum of the bytes:
    there are different names with one index and different keys with one
    commitment. *)
Definition sum_shake (x : bytes) : bytes := le_bytes 32 (fold_left (fun a b => a + Byte.to_N b)%N x 7%N).
Definition SumCrypto : Crypto := {|
  shake := sum_shake;
  sign_pub := sum_shake;
  sign_sign sk m := sum_shake (sum_shake sk ++ m) ++ sum_shake m;
  sign_verify pk m s := beq s (sum_shake (pk ++ m) ++ sum_shake m);
  vrf_pub := sum_shake;
  vrf_prove sk m := (sum_shake (sum_shake sk ++ m), m);
  vrf_verify pk m i p := beq i (sum_shake (pk ++ m)) && beq p m
|}.
Lemma SumCrypto_ok : CryptoOk SumCrypto.
Proof.
  constructor; intros; cbn [shake sign_pub sign_sign sign_verify vrf_pub vrf_prove vrf_verify SumCrypto fst snd].
  - apply le_bytes_length.
  - rewrite app_length. unfold sum_shake. rewrite !le_bytes_length. reflexivity.
  - apply beq_refl.
  - apply le_bytes_length.
  - apply le_bytes_length.
  - match goal with H : _ = true |- _ => apply andb_prop in H; destruct H as (H & _); apply beq_eq in H; subst end.
    apply le_bytes_length.
Qed.

(** Name "a" is asked for; in one world "bc" is registered with key "12", in
    the other "cb" with key "21" and another salt. *)
Definition pv_asked : bytes -> Prop := fun i => i = @idx_of SumCrypto [x11] [x61].
Definition pv_hide (n : bytes) : bytes :=
  if beq n [x62; x63] then [x63; x62] else if beq n [x63; x62] then [x62; x63] else n.
Definition pv_ops : list dir_op :=
  [DRegister (Some [x01; x05]) [x62; x63] [x31; x32]; DRegister (Some [x02]) [x61] [x33]; DUpdate].
Definition pv_ops' : list dir_op :=
  [DRegister (Some [x05; x01]) [x63; x62] [x32; x31]; DRegister (Some [x02]) [x61] [x33]; DUpdate].
Definition pv_code (d : result Directory) (n : bytes) : option (ErrorCode * list (option bytes)) :=
  match d with
  | Ok d => match @ask SumCrypto d (QLookup n) with
            | Ok resp => Some (r_error resp, map (fun o => match o with
                Some ap => match ap_leaf ap with Some l => pn_value l | None => None end | None => None end) (paths_of resp))
            | Panic => None end
  | Panic => None
  end.
Definition pv_run (ops : list dir_op) : result Directory :=
  do d0 <- @Directory_New SumCrypto 5 [x11] [x10] 4 true (Some [x07]) (Some [x08]); @dir_run SumCrypto d0 ops.
Example C81_nonvacuous :
  CryptoOk SumCrypto /\ @disguise SumCrypto [x11] pv_asked pv_hide /\
  Forall2 (@alike SumCrypto [x11] pv_asked pv_hide) pv_ops pv_ops' /\ pv_ops <> pv_ops' /\
  (exists d, @dir_built SumCrypto 5 [x11] [x10] 4 (Some [x07]) (Some [x08]) pv_ops d) /\
  (* the two worlds are told apart by asking for other names, not by asking for "a" *)
  pv_code (pv_run pv_ops) [x62; x63] = Some (ReqSuccess, [Some [x31; x32]]) /\
  pv_code (pv_run pv_ops') [x62; x63] = Some (ReqSuccess, [Some [x32; x31]]) /\
  pv_code (pv_run pv_ops) [x61] = Some (ReqSuccess, [Some [x33]]) /\
  pv_code (pv_run pv_ops') [x61] = Some (ReqSuccess, [Some [x33]]).
Proof.
  assert (NA : forall k, k = [x62; x63] \/ k = [x63; x62] -> ~ pv_asked (@idx_of SumCrypto [x11] k)).
  { intros k K E. unfold pv_asked in E.
    assert (X : beq (@idx_of SumCrypto [x11] k) (@idx_of SumCrypto [x11] [x61]) = false).
    { destruct K as [-> | ->]; vm_compute; reflexivity. }
    rewrite E, beq_refl in X. discriminate X. }
  split; [apply SumCrypto_ok|]. split.
  { unfold disguise, pv_hide. split; [|split].
    - intros n. destruct (beq_spec n [x62; x63]) as [->|N1]; [vm_compute; reflexivity|].
      destruct (beq_spec n [x63; x62]) as [->|N2]; [vm_compute; reflexivity|reflexivity].
    - intros n m. destruct (beq_spec n [x62; x63]), (beq_spec m [x62; x63]), (beq_spec n [x63; x62]), (beq_spec m [x63; x62]);
        congruence.
    - intros n A. destruct (beq_spec n [x62; x63]) as [->|N1]; [exfalso; revert A; apply NA; auto|].
      destruct (beq_spec n [x63; x62]) as [->|N2]; [exfalso; revert A; apply NA; auto|reflexivity]. }
  split.
  { unfold pv_ops, pv_ops'. constructor; [|constructor; [|constructor; [|constructor]]].
    - apply (al_register [x11] pv_asked pv_hide (Some [x01; x05]) (Some [x05; x01]) [x62; x63] [x31; x32] [x32; x31]);
        [reflexivity|reflexivity|vm_compute; reflexivity|].
      intros A. exfalso. revert A. apply NA. auto.
    - apply (al_register [x11] pv_asked pv_hide (Some [x02]) (Some [x02]) [x61] [x33] [x33]); auto.
    - constructor. }
  split; [discriminate|]. split.
  { assert (X : match pv_run pv_ops with Ok _ => true | Panic => false end = true) by (vm_compute; reflexivity).
    unfold pv_run in X. unfold dir_built.
    destruct (@Directory_New SumCrypto 5 [x11] [x10] 4 true (Some [x07]) (Some [x08])) as [d0|]; [|discriminate X].
    cbn [bind] in X. destruct (@dir_run SumCrypto d0 pv_ops) as [d|] eqn:R; [|discriminate X].
    exists d, d0. auto. }
  repeat split; vm_compute; reflexivity.
Qed.

(** What is disclosed: that somebody is registered near the asked name.  Two
    histories that differ only in the presence of another name give different
    answers about "a" (not registered in either). *)
Theorem C81_presence_refuted :
  ~ (forall (C : Crypto), CryptoOk C -> forall dl0 vk sk size r1 r2 ops r name key d d' q,
      dir_built dl0 vk sk size r1 r2 (ops ++ [DUpdate]) d ->
      dir_built dl0 vk sk size r1 r2 (ops ++ [DRegister r name key; DUpdate]) d' ->
      about vk (fun i => i <> idx_of vk name) q -> ask d q = ask d' q).
Proof.
  intros H.
  set (o1 := [DUpdate]). set (o2 := [DRegister (Some [x01]) [x62] [x31]; DUpdate]).
  assert (X : match pv_run o1, pv_run o2 with
              | Ok d, Ok d' => match @ask SumCrypto d (QLookup [x61]), @ask SumCrypto d' (QLookup [x61]) with
                  | Ok r, Ok r' => match paths_of r, paths_of r' with
                       | [Some p], [Some p'] => match ap_leaf p, ap_leaf p' with
                            | Some l, Some l' => pn_empty l && negb (pn_empty l') && beq (pn_index l') (@idx_of SumCrypto [x11] [x62])
                            | _, _ => false end
                       | _, _ => false end
                  | _, _ => false end
              | _, _ => false end = true) by (vm_compute; reflexivity).
  unfold pv_run in X.
  destruct (@Directory_New SumCrypto 5 [x11] [x10] 4 true (Some [x07]) (Some [x08])) as [d0|] eqn:N; [|discriminate X].
  cbn [bind] in X.
  destruct (@dir_run SumCrypto d0 o1) as [d|] eqn:R1; [|discriminate X].
  destruct (@dir_run SumCrypto d0 o2) as [d'|] eqn:R2; [|discriminate X].
  assert (Q : @about SumCrypto [x11] (fun i => i <> @idx_of SumCrypto [x11] [x62]) (QLookup [x61])).
  { cbn [about]. intros E. assert (Y : beq (@idx_of SumCrypto [x11] [x61]) (@idx_of SumCrypto [x11] [x62]) = false) by (vm_compute; reflexivity).
    rewrite E, beq_refl in Y. discriminate Y. }
  pose proof (H SumCrypto SumCrypto_ok 5%N [x11] [x10] 4 (Some [x07]) (Some [x08]) [] (Some [x01]) [x62] [x31] d d'
    (QLookup [x61]) (ex_intro _ d0 (conj N R1)) (ex_intro _ d0 (conj N R2)) Q) as E.
  rewrite E in X.
  destruct (@ask SumCrypto d' (QLookup [x61])) as [r|]; [|discriminate X].
  destruct (paths_of r) as [|[p|] [|]]; try discriminate X.
  destruct (ap_leaf p) as [l|]; [|discriminate X].
  destruct (pn_empty l); discriminate X.
Qed.
Print Assumptions C81_presence_refuted.
