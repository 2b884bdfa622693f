(** Cases that meet the hypotheses of the theorems about trees, proofs,
    directories, clients and auditors.

    Most theorems are followed in their own file by an example; this file adds
    the others, one [Cxx_case] per theorem, on literal data.  Theorems that
    conclude "... or a hash collision" are met twice: by data on which the first
    alternative holds, and, with a hash function that maps everything to 0,
    by data on which it does not. *)
From Coq Require Import List NArith ZArith Lia Bool Arith.
From Verif Require Import Base Utils Crypto Tree TreeSpec STR PAD PADSpec Protocol Directory DirSpec DirMain Auditor AudSpec Client ClientSpec
  Prop_Tree Prop_Proof Prop_PAD Prop_Directory Prop_Auditor Prop_Client.
Import ListNotations.

(** A scheme that is lawful and in which every two inputs collide. *)
(** no line of its own in /repo: an instance for the examples *)
Definition CollCrypto : Crypto := {|
  shake := fun _ => repeat x00 32;
  sign_pub := toy_shake;
  sign_sign := @sign_sign ToyCrypto;
  sign_verify := @sign_verify ToyCrypto;
  vrf_pub := toy_shake;
  vrf_prove := @vrf_prove ToyCrypto;
  vrf_verify := @vrf_verify ToyCrypto
|}.
Lemma CollCrypto_ok : CryptoOk CollCrypto.
Proof.
  destruct ToyCrypto_ok as [_ A B D E F]. constructor; [reflexivity|exact A|exact B|exact D|exact E|exact F].
Qed.

(** The value of a computation that does not crash. *)
Ltac value_of e := let x := eval vm_compute in e in match x with Ok ?v => exact v end.
Ltac done := vm_compute; reflexivity.

(** ** Trees: C09 *)
Definition coll_ops (v : bytes) : list tree_op := [TSet (Some [x01]) ex_i1 [x61] v; TSet (Some [x02]) ex_i2 [x62] [x32]].
Definition coll_tree (v : bytes) : result MerkleTree :=
  match @NewMerkleTree CollCrypto (Some [x07]) with Some m0 => @run_tree CollCrypto m0 (coll_ops v) | None => Panic end.
Definition coll_m1 : MerkleTree := ltac:(value_of (coll_tree [x31])).
Definition coll_m2 : MerkleTree := ltac:(value_of (coll_tree [x35])).
Lemma coll_spread v : spread 208 (fun j => @last_set CollCrypto (coll_ops v) j <> None).
Proof.
  assert (D : forall j, @last_set CollCrypto (coll_ops v) j <> None -> j = ex_i1 \/ j = ex_i2).
  { intros j. unfold last_set, last_set_from, coll_ops. cbn [fold_left last_set_step].
    destruct (beq_spec j ex_i1); auto. destruct (beq_spec j ex_i2); auto. congruence. }
  intros a b Ha Hb X. apply D in Ha, Hb.
  destruct Ha as [-> | ->], Hb as [-> | ->]; auto; vm_compute in X; discriminate.
Qed.
Lemma coll_built v m : coll_tree v = Ok m -> @built CollCrypto 32 (Some [x07]) (coll_ops v) m.
Proof.
  intro E. split; [lia|]. split; [repeat constructor|]. unfold coll_tree in E.
  destruct (@NewMerkleTree CollCrypto (Some [x07])) as [m0|]; [|discriminate E]. exists m0. split; [reflexivity|exact E].
Qed.
(** Different contents, equal root hash. *)
Example C09_case :
  @built CollCrypto 32 (Some [x07]) (coll_ops [x31]) coll_m1 /\ @built CollCrypto 32 (Some [x07]) (coll_ops [x35]) coll_m2 /\
  spread 208 (fun j => @last_set CollCrypto (coll_ops [x31]) j <> None) /\
  spread 208 (fun j => @last_set CollCrypto (coll_ops [x35]) j <> None) /\
  t_hash (@recomputeHash CollCrypto coll_m1) = t_hash (@recomputeHash CollCrypto coll_m2) /\
  option_map b_value (@last_set CollCrypto (coll_ops [x31]) ex_i1) = Some [x31] /\
  option_map b_value (@last_set CollCrypto (coll_ops [x35]) ex_i1) = Some [x35].
Proof.
  split; [apply coll_built; done|]. split; [apply coll_built; done|]. split; [apply coll_spread|]. split; [apply coll_spread|].
  split; [done|]. split; done.
Qed.

(** ** Proofs: C11, C12, C13, C14 *)
Definition coll_dir (ops : list dir_op) : result Directory :=
  do d0 <- @Directory_New CollCrypto 5 [x11] [x10] 8 true (Some [x07]) (Some [x08]); @dir_run CollCrypto d0 ops.
Definition coll_lookup (ops : list dir_op) : result Response := do d <- coll_dir ops; @KeyLookup CollCrypto d [x61].
Definition path_of (r : Response) : result AuthPath :=
  match r_df r with Some (DProof (Some df)) => match dp_ap df with Some ap :: _ => Ok ap | _ => Panic end | _ => Panic end.
Definition str_of (r : Response) : result DirSTR :=
  match r_df r with Some (DProof (Some df)) => match dp_str df with Some s :: _ => Ok s | _ => Panic end | _ => Panic end.
Definition leaf_of (r : Response) : result ProofNode := do ap <- path_of r; deref (ap_leaf ap).
(** Three answers for one name: one key, another key, and no key. *)
Definition coll_r1 : Response := ltac:(value_of (coll_lookup [DRegister (Some [x01]) [x61] [x31]; DUpdate])).
Definition coll_r2 : Response := ltac:(value_of (coll_lookup [DRegister (Some [x01]) [x61] [x35]; DUpdate])).
Definition coll_r3 : Response := ltac:(value_of (coll_lookup [DRegister (Some [x01]) [x62] [x35]; DUpdate])).
Definition coll_p1 : AuthPath := ltac:(value_of (path_of coll_r1)).
Definition coll_p2 : AuthPath := ltac:(value_of (path_of coll_r2)).
Definition coll_p3 : AuthPath := ltac:(value_of (path_of coll_r3)).
Definition coll_l1 : ProofNode := ltac:(value_of (leaf_of coll_r1)).
Definition coll_l2 : ProofNode := ltac:(value_of (leaf_of coll_r2)).
Definition coll_l3 : ProofNode := ltac:(value_of (leaf_of coll_r3)).
Definition coll_s : DirSTR := ltac:(value_of (str_of coll_r1)).
Lemma pruned32 ap : forallb (fun h => length h =? 32) (ap_pruned ap) = true -> pruned_ok ap.
Proof. intro H. apply Forall_forall. rewrite forallb_forall in H. intros h Ih. apply Nat.eqb_eq, H, Ih. Qed.

Example C11_case : exists c1 c2,
  @Verify CollCrypto coll_p1 [x61] (Some [x31]) (tree_hash_of coll_s) = Ok None /\
  @Verify CollCrypto coll_p2 [x61] (Some [x35]) (tree_hash_of coll_s) = Ok None /\
  ap_lookup coll_p1 = ap_lookup coll_p2 /\ length (ap_lookup coll_p1) = 32 /\
  ap_leaf coll_p1 = Some coll_l1 /\ ap_leaf coll_p2 = Some coll_l2 /\
  ProofType coll_p1 = Ok ProofOfInclusion /\ ProofType coll_p2 = Ok ProofOfInclusion /\
  pn_empty coll_l1 = false /\ pn_empty coll_l2 = false /\ pn_com coll_l1 = Some c1 /\ pn_com coll_l2 = Some c2 /\
  length (c_salt c1) = length (c_salt c2) /\ pruned_ok coll_p1 /\ pruned_ok coll_p2 /\ ap_pruned coll_p1 <> [].
Proof.
  eexists. eexists. do 12 (split; [done|]). split; [done|]. split; [apply pruned32; done|]. split; [apply pruned32; done|].
  vm_compute. discriminate.
Qed.
Example C12_case :
  @Verify CollCrypto coll_p1 [x61] (Some [x31]) (tree_hash_of coll_s) = Ok None /\
  @Verify CollCrypto coll_p3 [x61] None (tree_hash_of coll_s) = Ok None /\
  ap_lookup coll_p1 = ap_lookup coll_p3 /\ length (ap_lookup coll_p1) = 32 /\
  ap_leaf coll_p1 = Some coll_l1 /\ ap_leaf coll_p3 = Some coll_l3 /\
  ProofType coll_p1 = Ok ProofOfInclusion /\ ProofType coll_p3 = Ok ProofOfAbsence /\
  pn_empty coll_l1 = false /\ length (ap_nonce coll_p1) = 32 /\ absence_shape coll_p3 coll_l3 /\
  pruned_ok coll_p1 /\ pruned_ok coll_p3.
Proof.
  do 10 (split; [done|]). split.
  { split; [done|]. split; [|intros _; vm_compute; discriminate].
    intros _ c E. vm_compute in E. injection E as <-. done. }
  split; apply pruned32; done.
Qed.
(** A proof of absence taken from a tree with two entries under the toy hash. *)
Example C13_absence_case : exists m ap leaf, @built ToyCrypto 32 (Some [x07]) ex_ops m /\
  @Verify ToyCrypto ap [x63] None (t_hash (@recomputeHash ToyCrypto m)) = Ok None /\
  ProofType ap = Ok ProofOfAbsence /\ length (ap_lookup ap) = 32 /\
  ap_leaf ap = Some leaf /\ absence_shape ap leaf /\ pruned_ok ap.
Proof.
  assert (H : match @ex_tree ToyCrypto with
    | Ok m => match Get (@recomputeHash ToyCrypto m) ex_i3 with
      | Ok ap => match ap_leaf ap with
        | Some leaf => (match @Verify ToyCrypto ap [x63] None (t_hash (@recomputeHash ToyCrypto m)) with Ok None => true | _ => false end) &&
            (match ProofType ap with Ok ProofOfAbsence => true | _ => false end) && (length (ap_lookup ap) =? 32) &&
            (length (ap_nonce ap) =? 32) && pn_empty leaf && negb (length (pn_index leaf) =? 27) && forallb (fun h => length h =? 32) (ap_pruned ap)
        | None => false end
      | Panic => false end
    | Panic => false end = true) by done.
  destruct (@ex_tree ToyCrypto) as [m|] eqn:E; [|discriminate H].
  destruct (Get (@recomputeHash ToyCrypto m) ex_i3) as [ap|] eqn:G; [|discriminate H].
  destruct (ap_leaf ap) as [leaf|] eqn:L; [|discriminate H].
  rewrite !andb_true_iff in H. destruct H as ((((((H1 & H2) & H3) & H4) & H5) & H6) & H7).
  exists m, ap, leaf. split; [|split; [|split; [|split; [|split; [|split]]]]].
  - split; [lia|]. split; [repeat constructor|]. eexists. split; [reflexivity|exact E].
  - destruct (Verify ap [x63] None _) as [[|]|]; try discriminate H1. reflexivity.
  - destruct (ProofType ap) as [[|]|]; try discriminate H2. reflexivity.
  - apply Nat.eqb_eq. exact H3.
  - exact L.
  - split; [apply Nat.eqb_eq; exact H4|]. split; [rewrite H5; discriminate|]. intros _ X. apply Nat.eqb_neq in X; [exact X|].
    apply negb_true_iff. exact H6.
  - apply pruned32. exact H7.
Qed.
Example C14_get_case : exists m ap, @built ToyCrypto 32 (Some [x07]) ex_ops m /\
  spread (8 * (32 - 1)) (fun j => @last_set ToyCrypto ex_ops j <> None) /\ Get m ex_i3 = Ok ap.
Proof.
  destruct C01_nonvacuous as (m & B & _ & _ & S). exists m.
  assert (X : exists ap, Get m ex_i3 = Ok ap).
  { destruct (C04_proofs_verify ToyCrypto ToyCrypto_ok 32 _ _ m ex_i3 B eq_refl) as (ap & leaf & _).
    destruct B as (_ & _ & m0 & N & R).
    assert (H : match @ex_tree ToyCrypto with Ok m => match Get m ex_i3 with Ok _ => true | Panic => false end | Panic => false end = true) by done.
    injection N as <-. assert (R' : @ex_tree ToyCrypto = Ok m) by exact R.
    rewrite R' in H. destruct (Get m ex_i3) as [ap'|]; [eauto|discriminate H]. }
  destruct X as (ap & G). exists ap. auto.
Qed.

(** ** Authenticated dictionaries: C18, C19, C20 *)
Definition pad_t : Type := PAD bytes.
Definition case_pad (ops : list (pad_op bytes)) : result (pad_t * list (SignedTreeRoot bytes)) :=
  do o <- @NewPAD ToyCrypto bytes (fun x => x) [x04] [x10] [x11] 3 (Some [x07]) (Some [x08]);
  match o with Some p0 => @pad_run ToyCrypto bytes (fun x => x) p0 ops | None => Panic end.
Lemma case_pad_built ops p iss : case_pad ops = Ok (p, iss) ->
  exists hist, @pad_built ToyCrypto bytes (fun x => x) [x04] [x10] [x11] 3 (Some [x07]) (Some [x08]) ops p hist.
Proof.
  unfold case_pad. intro E. destruct (NewPAD _ _ _ _ _ _ _) as [[p0|]|] eqn:N; cbn [bind] in E; try discriminate E.
  eexists. exists p0, iss. split; [exact N|]. split; [exact E|reflexivity].
Qed.
Definition case_more : list (pad_op bytes) := [PSet (Some [x06]) [x61] [x39]; PUpdate None; PSet (Some [x09]) [x63] [x38]].
Definition pad_check : bool :=
  match case_pad pad_ex_ops with
  | Ok (p, _) => match @pad_run ToyCrypto bytes (fun x => x) p case_more with
     | Ok (p', _) => (match GetSTR p 2, GetSTR p' 2 with Some _, Some _ => true | _, _ => false end) &&
         (match GetSTR p 0 with None => true | _ => false end) && N.leb 2 (s_epoch (st_body (pd_latest p)))
     | Panic => false end
  | Panic => false end.
Example C18_C20_case : exists p hist p' s s',
  @pad_built ToyCrypto bytes (fun x => x) [x04] [x10] [x11] 3 (Some [x07]) (Some [x08]) pad_ex_ops p hist /\
  (N.of_nat (updates (pad_ex_ops ++ case_more)) < 2 ^ 64)%N /\
  @pad_continues ToyCrypto bytes (fun x => x) p case_more p' /\
  (2 <= s_epoch (st_body (pd_latest p)))%N /\ GetSTR p 2 = Some s /\ GetSTR p' 2 = Some s' /\ GetSTR p 0 = None.
Proof.
  assert (H : pad_check = true) by done. unfold pad_check in H.
  destruct (case_pad pad_ex_ops) as [[p iss]|] eqn:E; [|discriminate H].
  destruct (case_pad_built _ _ _ E) as (hist & B).
  destruct (pad_run (fun x => x) p case_more) as [[p' iss']|] eqn:R; [|discriminate H].
  destruct (GetSTR p 2) as [s|] eqn:G; [|discriminate H]. destruct (GetSTR p' 2) as [s'|] eqn:G'; [|discriminate H].
  destruct (GetSTR p 0) as [|] eqn:G0; [discriminate H|]. apply andb_prop in H. destruct H as (_ & H). apply N.leb_le in H.
  exists p, hist, p', s, s'. split; [exact B|]. split; [cbv; reflexivity|]. split; [exists iss'; exact R|].
  split; [exact H|]. auto.
Qed.
Example C19_case : exists p hist p',
  @pad_built ToyCrypto bytes (fun x => x) [x04] [x10] [x11] 3 (Some [x07]) (Some [x08]) pad_ex_ops p hist /\
  only_sets [PSet (A := bytes) (Some [x06]) [x61] [x39]; PSet (Some [x06]) [x64] [x39]] /\
  @pad_continues ToyCrypto bytes (fun x => x) p [PSet (Some [x06]) [x61] [x39]; PSet (Some [x06]) [x64] [x39]] p'.
Proof.
  assert (H : match case_pad pad_ex_ops with
     | Ok (p, _) => match @pad_run ToyCrypto bytes (fun x => x) p [PSet (Some [x06]) [x61] [x39]; PSet (Some [x06]) [x64] [x39]] with Ok _ => true | Panic => false end
     | Panic => false end = true) by done.
  destruct (case_pad pad_ex_ops) as [[p iss]|] eqn:E; [|discriminate H].
  destruct (case_pad_built _ _ _ E) as (hist & B).
  destruct (pad_run (fun x => x) p _) as [[p' iss']|] eqn:R; [|discriminate H].
  exists p, hist, p'. split; [exact B|]. split; [reflexivity|]. exists iss'. exact R.
Qed.

(** ** Directories: C22, C23, C28, C29 *)
Definition toy_dir (ops : list dir_op) : result Directory :=
  do d0 <- @Directory_New ToyCrypto 5 [x11] [x10] 2 true (Some [x07]) (Some [x08]); @dir_run ToyCrypto d0 ops.
Lemma toy_dir_built ops d : toy_dir ops = Ok d -> @dir_built ToyCrypto 5 [x11] [x10] 2 (Some [x07]) (Some [x08]) ops d.
Proof.
  unfold toy_dir. intro E. destruct (Directory_New _ _ _ _ _ _ _) as [d0|] eqn:N; cbn [bind] in E; [|discriminate E].
  exists d0. split; [exact N|exact E].
Qed.
Lemma toy_good ks : forallb (fun a => forallb (fun b => if list_eq_dec Bool.bool_dec (firstn 248 (ToBits (@idx_of ToyCrypto [x11] a)))
      (firstn 248 (ToBits (@idx_of ToyCrypto [x11] b))) then beq a b else true) ks) ks = true -> @vrf_good ToyCrypto [x11] ks.
Proof.
  intro A. split; [|intros k _; apply ToyCrypto_vrf]. intros a b Ia Ib E. rewrite forallb_forall in A. specialize (A a Ia).
  cbv beta in A. rewrite forallb_forall in A. specialize (A b Ib). cbv beta in A.
  destruct (list_eq_dec _ _ _); [|contradiction]. apply beq_eq. exact A.
Qed.
Definition later_ops : list dir_op := [DRegister (Some [x06]) [x65] [x41]; DUpdate; DRegister (Some [x07]) [x64] [x42]; DUpdate].
(** The name "d" is registered in the third epoch; two further epochs follow,
    in which another name is registered and "d" is tried again. *)
Example C22_C23_case : exists d d1 ap0 s0 tb d2,
  @dir_built ToyCrypto 5 [x11] [x10] 2 (Some [x07]) (Some [x08]) dir_ex_ops d /\
  @Register ToyCrypto d (Some [x05]) [x64] [x35] = Ok (d1, NewRegistrationProof ap0 s0 (Some tb) ReqSuccess) /\
  @dir_run ToyCrypto d1 later_ops = Ok d2 /\ 0 < dupdates later_ops /\
  few (dir_ex_ops ++ DRegister (Some [x05]) [x64] [x35] :: later_ops) /\
  @vrf_good ToyCrypto [x11] (names_of (dir_ex_ops ++ DRegister (Some [x05]) [x64] [x35] :: later_ops)).
Proof.
  assert (H : match toy_dir dir_ex_ops with
     | Ok d => match @Register ToyCrypto d (Some [x05]) [x64] [x35] with
        | Ok (d1, mkResp e (Some (DProof (Some (mkDP [Some _] [Some _] (Some _)))))) =>
            match @dir_run ToyCrypto d1 later_ops with Ok _ => Z.eqb e ReqSuccess | Panic => false end
        | _ => false end
     | Panic => false end = true) by done.
  destruct (toy_dir dir_ex_ops) as [d|] eqn:E; [|discriminate H].
  destruct (Register d (Some [x05]) [x64] [x35]) as [[d1 [e [[[[[|[ap|] [|? ?]] [|[s|] [|? ?]] [tb|]]|]|?]|]]]|] eqn:R; try discriminate H.
  destruct (dir_run d1 later_ops) as [d2|] eqn:R2; [|discriminate H]. apply Z.eqb_eq in H. subst e.
  exists d, d1, ap, s, tb, d2. split; [apply toy_dir_built; exact E|]. split; [exact R|]. split; [exact R2|].
  split; [cbv; lia|]. split; [cbv; reflexivity|]. apply toy_good. done.
Qed.
(** The STR of epoch 2 of that directory. *)
Example C28_C29_case : exists d s,
  @dir_built ToyCrypto 5 [x11] [x10] 2 (Some [x07]) (Some [x08]) dir_ex_ops d /\ few dir_ex_ops /\ 2 <= dupdates dir_ex_ops /\
  @published ToyCrypto 5 [x11] [x10] 2 (Some [x07]) (Some [x08]) dir_ex_ops 2 s /\ epoch_of s = Some 2%N.
Proof.
  assert (H : match toy_dir dir_ex_ops, toy_dir (dupto 2 dir_ex_ops) with
     | Ok d, Ok d' => match epoch_of (LatestSTR d') with Some e => N.eqb e 2 | None => false end | _, _ => false end = true) by done.
  destruct (toy_dir dir_ex_ops) as [d|] eqn:E; [|discriminate H].
  destruct (toy_dir (dupto 2 dir_ex_ops)) as [d'|] eqn:E'; [|discriminate H].
  exists d, (LatestSTR d'). split; [apply toy_dir_built; exact E|]. split; [cbv; reflexivity|]. split; [cbv; lia|].
  split; [exists d'; split; [apply toy_dir_built; exact E'|reflexivity]|].
  destruct (epoch_of (LatestSTR d')) as [e|]; [|discriminate H]. apply N.eqb_eq in H. congruence.
Qed.

(** ** Clients: C31-C36 *)
Definition coll_client : Checks :=
  ltac:(value_of (do d0 <- coll_dir []; Client_New (LatestSTR d0) true (@sign_pub CollCrypto [x10]))).
Definition coll_after (r : Response) : result Checks :=
  do (cc, e) <- @HandleResponse CollCrypto coll_client KeyLookupType r [x61] None;
  match e with None => Ok cc | Some _ => Panic end.
Definition coll_c1 : Checks := ltac:(value_of (coll_after coll_r1)).
Definition coll_c2 : Checks := ltac:(value_of (coll_after coll_r2)).
Definition coll_c3 : Checks := ltac:(value_of (coll_after coll_r3)).
(** Two clients that started from the same STR accept two different keys for
    one name, both ending in the same STR of epoch 1. *)
Example C33_conflict_case :
  cc_useTBs coll_client = true /\
  @HandleResponse CollCrypto coll_client KeyLookupType coll_r1 [x61] None = Ok (coll_c1, None) /\
  @HandleResponse CollCrypto coll_client KeyLookupType coll_r2 [x61] None = Ok (coll_c2, None) /\
  answer coll_r1 coll_p1 coll_s /\ answer coll_r2 coll_p2 coll_s /\
  au_str (cc_aud coll_c1) = au_str (cc_aud coll_c2) /\ epoch_of (au_str (cc_aud coll_c1)) = Some 1%N /\
  ap_leaf coll_p1 = Some coll_l1 /\ ap_leaf coll_p2 = Some coll_l2 /\
  ProofType coll_p1 = Ok ProofOfInclusion /\ ProofType coll_p2 = Ok ProofOfInclusion /\
  binding_shape coll_p1 /\ binding_shape coll_p2 /\ pn_value coll_l1 = Some [x31] /\ pn_value coll_l2 = Some [x35].
Proof.
  do 3 (split; [done|]). split; [eexists; eexists; eexists; split; [done|]; split; done|].
  split; [eexists; eexists; eexists; split; [done|]; split; done|]. do 6 (split; [done|]).
  split; [split; [apply pruned32; done|]; eexists; eexists; split; [done|]; split; [done|]; split; done|].
  split; [split; [apply pruned32; done|]; eexists; eexists; split; [done|]; split; [done|]; split; done|].
  split; done.
Qed.
Example C33_presence_vs_absence_case :
  @HandleResponse CollCrypto coll_client KeyLookupType coll_r1 [x61] None = Ok (coll_c1, None) /\
  @HandleResponse CollCrypto coll_client KeyLookupType coll_r3 [x61] None = Ok (coll_c3, None) /\
  answer coll_r1 coll_p1 coll_s /\ answer coll_r3 coll_p3 coll_s /\
  au_str (cc_aud coll_c1) = au_str (cc_aud coll_c3) /\
  ap_leaf coll_p1 = Some coll_l1 /\ ap_leaf coll_p3 = Some coll_l3 /\
  ProofType coll_p1 = Ok ProofOfInclusion /\ ProofType coll_p3 = Ok ProofOfAbsence /\
  pruned_ok coll_p1 /\ pruned_ok coll_p3 /\ pn_empty coll_l1 = false /\ length (ap_nonce coll_p1) = 32 /\
  absence_shape coll_p3 coll_l3 /\ r_error coll_r3 = ReqNameNotFound.
Proof.
  do 2 (split; [done|]). split; [eexists; eexists; eexists; split; [done|]; split; done|].
  split; [eexists; eexists; eexists; split; [done|]; split; done|]. do 5 (split; [done|]).
  split; [apply pruned32; done|]. split; [apply pruned32; done|]. do 2 (split; [done|]).
  split; [exact (proj1 (proj2 (proj2 (proj2 (proj2 (proj2 (proj2 (proj2 (proj2 (proj2 (proj2 C12_case)))))))))))|done].
Qed.

(** Under the toy hash: the client of Prop_Client.v registers "a" (C31, C32,
    C34 and C36), and in the next epoch is shown the promised key, or another one
    (C35). *)
Definition case_cc0 : Checks := ltac:(value_of ex_client).
Definition case_reg : Response := ltac:(value_of (ex_register [] [x61] [x31])).
Definition case_cc1 : Checks := ltac:(value_of (
  do (cc, e) <- @HandleResponse ToyCrypto case_cc0 RegistrationType case_reg [x61] (Some [x31]); match e with None => Ok cc | Some _ => Panic end)).
Definition case_shown : Response := ltac:(value_of (ex_lookup [DRegister (Some [x01]) [x61] [x31]; DUpdate] [x61])).
Definition case_other : Response := ltac:(value_of (ex_overwritten [DRegister (Some [x01]) [x61] [x31]] [x61] [x38])).
Definition case_cc2 : Checks := ltac:(value_of (
  do (cc, e) <- @HandleResponse ToyCrypto case_cc1 KeyLookupType case_shown [x61] (Some [x31]); match e with None => Ok cc | Some _ => Panic end)).
Definition case_tb : TemporaryBinding := ltac:(value_of (deref (map_get beq [x61] (cc_tbs case_cc1)))).
Definition case_ap : AuthPath := ltac:(value_of (path_of case_shown)).
Definition case_str : DirSTR := ltac:(value_of (str_of case_shown)).
Definition case_leaf : ProofNode := ltac:(value_of (leaf_of case_shown)).
Definition other_ap : AuthPath := ltac:(value_of (path_of case_other)).
Definition other_str : DirSTR := ltac:(value_of (str_of case_other)).
Definition other_leaf : ProofNode := ltac:(value_of (leaf_of case_other)).
Lemma shape_ok_b ap : match ap_leaf ap with
    | Some leaf => (pn_level leaf <=? 8 * length (pn_index leaf)) && (pn_level leaf <=? 8 * length (ap_lookup ap)) &&
        (pn_level leaf <=? length (ap_pruned ap)) &&
        (match pn_com leaf with Some _ => true | None => pn_empty leaf && negb (beq (pn_index leaf) (ap_lookup ap)) end)
    | None => false end = true -> shape_ok ap.
Proof.
  intro H. destruct (ap_leaf ap) as [leaf|] eqn:L; [|discriminate H]. rewrite !andb_true_iff, !Nat.leb_le in H.
  destruct H as (((H1 & H2) & H3) & H4). exists leaf. split; [exact L|]. split; [exact H1|]. split; [exact H2|]. split; [exact H3|].
  intro N. rewrite N in H4. apply andb_prop in H4. destruct H4 as (H4 & H5). split; [exact H4|]. apply beq_neq. apply negb_true_iff. exact H5.
Qed.
Example C31_C32_C34_C36_case :
  cc_useTBs case_cc0 = true /\
  @HandleResponse ToyCrypto case_cc0 RegistrationType case_reg [x61] (Some [x31]) = Ok (case_cc1, None) /\
  @HandleResponse ToyCrypto case_cc1 KeyLookupType case_shown [x61] (Some [x31]) = Ok (case_cc2, None) /\
  answer case_shown case_ap case_str /\ well_shaped case_shown /\ well_shaped case_reg /\
  d_body (au_str (cc_aud case_cc1)) <> None /\
  epoch_of (au_str (cc_aud case_cc0)) = Some 0%N /\ epoch_of (au_str (cc_aud case_cc2)) = Some 1%N.
Proof.
  do 3 (split; [done|]). split; [eexists; eexists; eexists; split; [done|]; split; done|].
  split; [|split; [|split; [vm_compute; discriminate|split; done]]].
  - unfold well_shaped. cbn [case_shown r_df dp_ap dp_str]. split; [apply shape_ok_b; done|]. split; vm_compute; discriminate.
  - unfold well_shaped. cbn [case_reg r_df dp_ap dp_str]. split; [apply shape_ok_b; done|]. split; vm_compute; discriminate.
Qed.
Example C34_given_key_case :
  cc_useTBs case_cc1 = true /\ @HandleResponse ToyCrypto case_cc1 KeyLookupType case_shown [x61] (Some [x31]) = Ok (case_cc2, None) /\
  answer case_shown case_ap case_str /\ ProofType case_ap = Ok ProofOfInclusion.
Proof. do 2 (split; [done|]). split; [eexists; eexists; eexists; split; [done|]; split; done|done]. Qed.
Lemma signed_by_b pk s : match d_body s, DirSTR_Serialize s with
    | Some b, Ok bs => @sign_verify ToyCrypto pk bs (s_sig b) | _, _ => false end = true -> @signed_by ToyCrypto pk s.
Proof.
  intro H. destruct (d_body s) as [b|] eqn:B; [|discriminate H]. destruct (DirSTR_Serialize s) as [bs|] eqn:E; [|discriminate H].
  exists b, bs. auto.
Qed.
Example C34_other_key_case : exists pol,
  is_error (r_error case_shown) = false /\ answer case_shown case_ap case_str /\ @next_str ToyCrypto (cc_aud case_cc1) case_str /\
  d_pol case_str = Some pol /\
  @vrf_verify ToyCrypto (pol_vrf pol) [x61] (ap_lookup case_ap) (ap_vrf case_ap) = true /\
  ProofType case_ap = Ok ProofOfInclusion /\ ap_leaf case_ap = Some case_leaf /\ obytes (pn_value case_leaf) <> [x39] /\
  r_error case_shown = ReqSuccess.
Proof.
  eexists. split; [done|]. split; [eexists; eexists; eexists; split; [done|]; split; done|].
  split; [split; [vm_compute; discriminate|right; split; [apply signed_by_b; done|done]]|].
  do 4 (split; [done|]). split; [vm_compute; discriminate|done].
Qed.
Example C35_inclusion_case :
  cc_useTBs case_cc1 = true /\ @HandleResponse ToyCrypto case_cc1 KeyLookupType case_shown [x61] (Some [x31]) = Ok (case_cc2, None) /\
  answer case_shown case_ap case_str /\ ProofType case_ap = Ok ProofOfInclusion /\ ap_leaf case_ap = Some case_leaf /\
  map_get beq [x61] (cc_tbs case_cc1) = Some case_tb.
Proof. do 2 (split; [done|]). split; [eexists; eexists; eexists; split; [done|]; split; done|]. do 2 (split; [done|]). done. Qed.
Example C35_mismatch_case : exists pol b,
  cc_useTBs case_cc1 = true /\ r_error case_other = ReqSuccess /\ answer case_other other_ap other_str /\
  @next_str ToyCrypto (cc_aud case_cc1) other_str /\ d_pol other_str = Some pol /\ d_body other_str = Some b /\
  @vrf_verify ToyCrypto (pol_vrf pol) [x61] (ap_lookup other_ap) (ap_vrf other_ap) = true /\
  ap_leaf other_ap = Some other_leaf /\ ProofType other_ap = Ok ProofOfInclusion /\
  @Verify ToyCrypto other_ap [x61] (pn_value other_leaf) (s_hash b) = Ok None /\
  map_get beq [x61] (cc_tbs case_cc1) = Some case_tb /\ tb_value case_tb <> obytes (pn_value other_leaf).
Proof.
  eexists. eexists. do 2 (split; [done|]). split; [eexists; eexists; eexists; split; [done|]; split; done|].
  split; [split; [vm_compute; discriminate|right; split; [apply signed_by_b; done|done]]|].
  do 7 (split; [done|]). vm_compute. discriminate.
Qed.

(** ** Auditors: C37-C40 *)
Definition case_d : Directory := ltac:(value_of (aud_dir (aud_ops [x31]))).
Definition nth_str (k : nat) : result DirSTR := do r <- aud_resp [x31] 0 2; deref (nth k (aud_strs r) None).
Definition str_0 : DirSTR := ltac:(value_of (nth_str 0)).
Definition str_1 : DirSTR := ltac:(value_of (nth_str 1)).
Definition str_2 : DirSTR := ltac:(value_of (nth_str 2)).
Lemma aud_published k s : match aud_dir (dupto k (aud_ops [x31])) with Ok d => Some (LatestSTR d) | Panic => None end = Some s ->
  @published ToyCrypto 5 [x11] [x10] 8 (Some [x07]) (Some [x08]) (aud_ops [x31]) k s.
Proof.
  intro H. destruct (aud_dir (dupto k (aud_ops [x31]))) as [d|] eqn:E; [|discriminate H]. injection H as <-.
  exists d. split; [|reflexivity]. unfold aud_dir in E.
  destruct (Directory_New _ _ _ _ _ _ _) as [d0|] eqn:N; cbn [bind] in E; [|discriminate E]. exists d0. auto.
Qed.
(** An auditor at epoch 0 asks for the STRs of epochs 1 and 2. *)
Example C37_honest_case : exists h resp,
  @dir_built ToyCrypto 5 [x11] [x10] 8 (Some [x07]) (Some [x08]) (aud_ops [x31]) case_d /\ few (aud_ops [x31]) /\
  @published ToyCrypto 5 [x11] [x10] 8 (Some [x07]) (Some [x08]) (aud_ops [x31]) 0 str_0 /\
  h_aud h = mkAud (@sign_pub ToyCrypto [x10]) str_0 /\ dupdates (aud_ops [x31]) = 2 /\
  GetSTRHistory case_d (N.of_nat 1) (N.of_nat 2) = Ok resp.
Proof.
  exists (mkHist (mkAud (@sign_pub ToyCrypto [x10]) str_0) [] []). eexists. split.
  { assert (E : aud_dir (aud_ops [x31]) = Ok case_d) by done. unfold aud_dir in E.
    destruct (Directory_New _ _ _ _ _ _ _) as [d0|] eqn:N; cbn [bind] in E; [|discriminate E]. exists d0. split; [exact N|exact E]. }
  split; [cbv; reflexivity|]. split; [apply aud_published; done|]. split; [reflexivity|]. split; [done|]. done.
Qed.

(** The three calls of Prop_Auditor.v: [InitHistory], then [Audit] with epoch 1,
    then with epochs 1 and 2. *)
Definition log_id : bytes := ltac:(value_of (do x <- aud_log; Ok (fst (fst x)))).
Definition log_r1 : Response := ltac:(value_of (aud_resp [x31] 1 1)).
Definition log_r2 : Response := ltac:(value_of (aud_resp [x31] 1 2)).
Definition log_ops1 : list log_op := [LInit [x2f] aud_pk [Some str_0]; LAudit log_id log_r1].
Definition log_l1 : AuditLog := ltac:(value_of (@log_run ToyCrypto [] log_ops1)).
Definition log_l2 : AuditLog := ltac:(value_of (@log_run ToyCrypto log_l1 [LAudit log_id log_r2])).
Definition log_h1 : history := ltac:(value_of (deref (map_get beq log_id log_l1))).
Definition log_h2 : history := ltac:(value_of (do (h, e) <- @Audit ToyCrypto log_h1 log_r2; match e with None => Ok h | Some _ => Panic end)).
Example C38_case : exists chain,
  @log_run ToyCrypto [] log_ops1 = Ok log_l1 /\ @log_run ToyCrypto log_l1 [LAudit log_id log_r2] = Ok log_l2 /\
  Forall (@good_init ToyCrypto) (log_ops1 ++ [LAudit log_id log_r2]) /\
  (N.of_nat (received (log_ops1 ++ [LAudit log_id log_r2])) < 2 ^ 64)%N /\
  map_get beq log_id log_l1 = Some log_h1 /\ @Audit ToyCrypto log_h1 log_r2 = Ok (log_h2, None) /\
  serves log_l1 log_id chain /\ chain = [str_0; str_1].
Proof.
  assert (G : Forall (@good_init ToyCrypto) log_ops1).
  { constructor; [exists str_0, []; split; [reflexivity|exact I]|]. constructor; [exact I|constructor]. }
  exists [str_0; str_1]. do 2 (split; [done|]). split.
  { constructor; [exact (Forall_inv G)|]. constructor; [exact I|]. constructor; [exact I|constructor]. }
  do 3 (split; [done|]). split; [|reflexivity].
  assert (R : @log_run ToyCrypto [] log_ops1 = Ok log_l1) by done.
  pose proof (C38_log_serves_chain ToyCrypto log_ops1 log_l1 R G ltac:(cbv; reflexivity) log_id) as S.
  assert (O1 : GetObservedSTRs log_l1 log_id (N.of_nat 0) (N.of_nat 1) = Ok (NewSTRHistoryRange [Some str_0; Some str_1])) by done.
  assert (O2 : GetObservedSTRs log_l1 log_id (N.of_nat 0) (N.of_nat 2) = Ok (NewErrorResponse ErrMalformedMessage)) by done.
  destruct S as [S|(addr & pk & s0 & snaps & chain & _ & _ & _ & _ & S)].
  { rewrite S in O1. discriminate O1. }
  rewrite (S 0 1) in O1. rewrite (S 0 2) in O2. destruct chain as [|s1 [|s2 chain]].
  - discriminate O1.
  - assert (X : [s0; s1] = [str_0; str_1]).
    { clear -O1. cbn [length firstn skipn Nat.ltb Nat.leb Nat.sub orb map] in O1. unfold NewSTRHistoryRange in O1. 
      assert (Y : forall a b, Ok (mkResp ReqSuccess (Some (DHistory (Some a)))) = Ok (mkResp ReqSuccess (Some (DHistory (Some b)))) -> a = b)
        by (intros a b E; injection E; auto).
      apply Y in O1. assert (Z : forall a b c d : DirSTR, [Some a; Some b] = [Some c; Some d] -> [a; b] = [c; d])
        by (intros a b c d E; injection E; intros; subst; reflexivity). apply Z. exact O1. }
    rewrite X in S. exact S.
  - discriminate O2.
Qed.

(** A client at epoch 1 asks the log for epochs 0 to 2: the newest STR extends
    the client's. *)
Definition case_cli : Checks := ltac:(value_of aud_client).
Definition log_answer : Response := ltac:(value_of (GetObservedSTRs log_l2 log_id 0 2)).
Example C40_case :
  @CheckEquivocation ToyCrypto case_cli log_answer = Ok None /\
  r_df log_answer = Some (DHistory (Some [Some str_0; Some str_1; Some str_2])) /\
  (forall x, In (Some x) [Some str_0; Some str_1; Some str_2] -> exists n, epoch_of x = Some n /\ n + N.of_nat 3 < 2 ^ 64)%N /\
  epoch_of str_1 = Some 1%N /\ epoch_of (au_str (cc_aud case_cli)) = Some 1%N /\
  @follows ToyCrypto (au_key (cc_aud case_cli)) str_0 [str_1; str_2] /\ last [str_1] str_0 = au_str (cc_aud case_cli).
Proof.
  do 2 (split; [done|]). split.
  { intros x [X|[X|[X|[]]]]; injection X as <-; eexists; (split; [done|done]). }
  do 2 (split; [done|]). split; [|done].
  cbn [follows]. split; [apply signed_by_b; done|]. split; [done|]. split; [apply signed_by_b; done|]. split; [done|exact I].
Qed.
