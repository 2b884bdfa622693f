(** The pointer-level dictionary refines the value-level one. *)
From Coq Require Import List NArith Lia Bool Arith.
From Verif Require Import Base Utils Crypto Tree TreeSpec STR PAD PADSpec TreeHeap HeapFacts PADHeap.
Import ListNotations.

(** ** Slices *)
Lemma firstn_set {A} (l : list A) k x : k < length l -> firstn (S k) (set_nth l k x) = firstn k l ++ [x].
Proof.
  intro L. unfold set_nth. rewrite firstn_app, firstn_length, Nat.min_l by lia. replace (S k - k) with 1 by lia.
  rewrite firstn_firstn, Nat.min_r by lia. reflexivity.
Qed.
Lemma skipn_set {A} (l : list A) k x : k < length l -> skipn (S k) (set_nth l k x) = skipn (S k) l.
Proof.
  intro L. unfold set_nth. rewrite skipn_app, firstn_length, Nat.min_l by lia. replace (S k - k) with 1 by lia.
  rewrite skipn_all2 by (rewrite firstn_length; lia). reflexivity.
Qed.
Definition slice_ok (s : slice) : Prop := sl_len s <= length (sl_array s).
Lemma elements_length s : slice_ok s -> length (elements s) = sl_len s.
Proof. intro H. unfold elements. rewrite firstn_length. unfold slice_ok in H. lia. Qed.
Lemma append1_ok s e : slice_ok s ->
  elements (append1 s e) = elements s ++ [e] /\ length (sl_array (append1 s e)) = grow (sl_len s) (length (sl_array s)) /\ slice_ok (append1 s e).
Proof.
  unfold slice_ok, append1. intro H. destruct (Nat.ltb_spec (sl_len s) (length (sl_array s))) as [L|L].
  - unfold elements. cbn [sl_array sl_len]. rewrite firstn_set, set_nth_length by exact L.
    split; [reflexivity|]. unfold grow. rewrite (proj2 (Nat.ltb_lt _ _) L). split; [reflexivity|lia].
  - unfold elements at 1. cbn [sl_array sl_len]. pose proof (elements_length s H) as EL.
    assert (G : S (sl_len s) <= grow (sl_len s) (length (sl_array s))).
    { unfold grow. destruct (Nat.ltb_spec (sl_len s) (length (sl_array s))); [lia|]. destruct (Nat.eqb_spec (length (sl_array s)) 0); lia. }
    rewrite firstn_app, EL. rewrite firstn_all2 by lia. replace (S (sl_len s) - sl_len s) with 1 by lia. cbn [firstn].
    split; [reflexivity|]. rewrite app_length, EL. cbn [length]. rewrite repeat_length. lia.
Qed.
Lemma nth_in_firstn (arr : list N) i : i < length arr -> firstn 1 (skipn i arr) = [nth i arr 0%N].
Proof. revert i. induction arr as [|a arr IH]; intros [|i] L; cbn [length] in L; try lia; [reflexivity|]. cbn [skipn nth]. apply IH. lia. Qed.
Lemma move_length n count : forall arr to, to + n + count <= length arr -> length (move arr (to + n) to count) = length arr.
Proof.
  induction count as [|count IH]; intros arr to L; cbn [move]; [reflexivity|].
  change (S (to + n)) with (S to + n). rewrite IH; rewrite set_nth_length; lia.
Qed.
Lemma move_ok n count : forall arr to, to + n + count <= length arr ->
  firstn (to + count) (move arr (to + n) to count) = firstn to arr ++ firstn count (skipn (to + n) arr).
Proof.
  induction count as [|count IH]; intros arr to L; cbn [move].
  - rewrite Nat.add_0_r. cbn [firstn]. rewrite app_nil_r. reflexivity.
  - change (S (to + n)) with (S to + n). replace (to + S count) with (S to + count) by lia.
    assert (T : to < length arr) by lia. rewrite IH by (rewrite set_nth_length; lia). rewrite firstn_set by exact T. rewrite <- app_assoc. f_equal.
    change (S count) with (1 + count). assert (E : forall a b (l : list N), firstn (a + b) l = firstn a l ++ firstn b (skipn a l)).
    { induction a as [|a IHa]; intros b l; cbn [Nat.add firstn skipn]; [reflexivity|]. destruct l; cbn [firstn skipn app]; [rewrite firstn_nil; reflexivity|]. f_equal. apply IHa. }
    rewrite E, nth_in_firstn by lia. f_equal. f_equal.
    assert (K : forall a b (l : list N), skipn a (skipn b l) = skipn (b + a) l).
    { intros a b. induction b as [|b IHb]; intro l; [reflexivity|]. destruct l; cbn [skipn Nat.add]; [apply skipn_nil|apply IHb]. }
    rewrite (K 1 (to + n) arr). replace (to + n + 1) with (S to + n) by lia.
    rewrite <- (K n (S to)), <- (K n (S to) arr). rewrite skipn_set by exact T. reflexivity.
Qed.
Lemma drop_front_ok s n : slice_ok s -> n <= sl_len s ->
  elements (drop_front s n) = skipn n (elements s) /\ length (sl_array (drop_front s n)) = length (sl_array s) /\
  sl_len (drop_front s n) = sl_len s - n /\ slice_ok (drop_front s n).
Proof.
  unfold slice_ok, drop_front, elements. cbn [sl_array sl_len]. intros H L.
  pose proof (move_ok n (sl_len s - n) (sl_array s) 0 ltac:(lia)) as M. cbn [Nat.add firstn app] in M.
  pose proof (move_length n (sl_len s - n) (sl_array s) 0 ltac:(lia)) as ML. cbn [Nat.add] in ML.
  split; [|split; [exact ML|split; [reflexivity|rewrite ML; lia]]]. rewrite M, firstn_skipn_comm. f_equal. f_equal. lia.
Qed.

(** ** Maps *)
Definition lift {X Y} (f : X -> Y) (m : list (N * X)) : list (N * Y) := map (fun x => (fst x, f (snd x))) m.
Lemma lift_get {X Y} (f : X -> Y) e m : map_get N.eqb e (lift f m) = option_map f (map_get N.eqb e m).
Proof. induction m as [|[k x] m IH]; [reflexivity|]. cbn [lift map map_get fst snd]. destruct (N.eqb e k); [reflexivity|exact IH]. Qed.
Lemma lift_del {X Y} (f : X -> Y) e m : map_del N.eqb e (lift f m) = lift f (map_del N.eqb e m).
Proof. induction m as [|[k x] m IH]; [reflexivity|]. cbn [lift map map_del fst snd]. destruct (N.eqb e k); [exact IH|]. cbn [map fst snd]. f_equal. exact IH. Qed.
Lemma lift_fold {X Y} (f : X -> Y) (l : list N) : forall m, fold_left (fun s e => map_del N.eqb e s) l (lift f m) = lift f (fold_left (fun s e => map_del N.eqb e s) l m).
Proof. induction l as [|e l IH]; intro m; [reflexivity|]. cbn [fold_left]. rewrite lift_del. apply IH. Qed.
Lemma fold_seq {X} (arr : list N) n : n <= length arr -> forall (m : list (N * X)),
  fold_left (fun s i => map_del N.eqb (nth i arr 0%N) s) (seq 0 n) m = fold_left (fun s e => map_del N.eqb e s) (firstn n arr) m.
Proof.
  intro L. assert (E : firstn n arr = map (fun i => nth i arr 0%N) (seq 0 n)).
  { revert n L. induction arr as [|a arr IH]; intros [|n] L; cbn [length] in L; try lia; [reflexivity..|].
    cbn [firstn seq map nth]. f_equal. rewrite <- seq_shift, map_map. apply IH. lia. }
  rewrite E. generalize (seq 0 n) as l. induction l as [|i l IH]; intro m; [reflexivity|]. cbn [fold_left map]. apply IH.
Qed.

Section Refine.
  Context {C : Crypto} {A : Type} (ser : A -> bytes).

  (** ** Signed tree roots *)
  Definition str_rel (ms : list MerkleTree) (tree : nat) (x : hstr A) (s : SignedTreeRoot A) : Prop :=
    nth_error ms (hs_tree x) = Some (st_tree s) /\ hs_tree x <> tree /\ hs_body x = st_body s /\ hs_ad x = st_ad s.
  (** Pointer [k] refers to the [k]-th signed tree root ever issued. *)
  Record padrel (p : hPAD A) (q : PAD A) (hist : list (SignedTreeRoot A)) (ms : list MerkleTree) : Prop := mkRel {
    pr_forest : forest_rep (m_forest (hp_mem p)) ms;
    pr_strs : Forall2 (str_rel ms (hp_tree p)) (m_strs (hp_mem p)) hist;
    pr_tree : nth_error ms (hp_tree p) = Some (pd_tree q);
    pr_snap : lift (nth_error hist) (hp_snap p) = lift Some (pd_snap q);
    pr_latest : nth_error hist (hp_latest p) = Some (pd_latest q);
    pr_slice : slice_ok (hp_loaded p);
    pr_loaded : elements (hp_loaded p) = pd_loaded q;
    pr_cap : length (sl_array (hp_loaded p)) = pd_cap q;
    pr_sign : hp_sign p = pd_sign q; pr_vrf : hp_vrf p = pd_vrf q; pr_ad : hp_ad p = pd_ad q }.

  Lemma Forall2_nth {X Y} (R : X -> Y -> Prop) l l' k x : Forall2 R l l' -> nth_error l' k = Some x -> exists y, nth_error l k = Some y /\ R y x.
  Proof. intro H. revert k. induction H as [|a b l l' Hab H IH]; intros [|k] E; cbn [nth_error] in *; try discriminate E; [injection E as <-; eauto|eauto]. Qed.
  Lemma Forall2_mono {X Y} (R R' : X -> Y -> Prop) l l' : (forall a b, R a b -> R' a b) -> Forall2 R l l' -> Forall2 R' l l'.
  Proof. intros M H. induction H; constructor; auto. Qed.

  (** ** The step that signs *)
  Lemma sign_ok f ms (strs : list (hstr A)) hist tree t sign ad epoch prev : forest_rep f ms -> Forall2 (str_rel ms tree) strs hist -> nth_error ms tree = Some t ->
    exists m ms', h_sign_root ser (mkMem f strs) sign ad tree epoch prev = Ok (m, length strs) /\
      forest_rep (m_forest m) ms' /\
      Forall2 (str_rel ms' tree) (m_strs m) (hist ++ [snd (signTreeRoot ser sign ad t epoch prev)]) /\
      nth_error ms' tree = Some (fst (signTreeRoot ser sign ad t epoch prev)) /\ length strs = length hist.
  Proof.
    intros FR F2 Et. unfold h_sign_root. cbn [m_forest m_strs]. pose proof (nth_lt _ _ _ Et) as LT.
    assert (V1 : vstep ms (FRehash tree) = Ok (set_nth ms tree (recomputeHash t))) by (cbn [vstep]; unfold index; rewrite Et; reflexivity).
    destruct (step_refines _ _ _ _ FR V1) as (f1 & -> & FR1). cbn [bind]. set (ms1 := set_nth ms tree (recomputeHash t)) in *.
    assert (E1 : nth_error ms1 tree = Some (recomputeHash t)) by (unfold ms1; rewrite nth_set, Nat.eqb_refl by exact LT; reflexivity).
    assert (V2 : vstep ms1 (FClone tree) = Ok (ms1 ++ [Clone (recomputeHash t)])) by (cbn [vstep]; unfold index; rewrite E1; reflexivity).
    destruct (step_refines _ _ _ _ FR1 V2) as (f2 & -> & FR2). cbn [bind].
    assert (L1 : length (snd f1) = length ms1) by apply FR1.
    assert (L1' : length ms1 = length ms) by (unfold ms1; apply set_nth_length; exact LT).
    set (ms2 := ms1 ++ [Clone (recomputeHash t)]) in *.
    assert (E2 : nth_error ms2 (length (snd f1)) = Some (Clone (recomputeHash t))) by (unfold ms2; rewrite nth_snoc, L1, Nat.eqb_refl; reflexivity).
    destruct (forest_obs _ _ _ _ FR2 E2) as (c & Ec & Hc & _). unfold index. rewrite Ec. cbn [bind].
    eexists. exists ms2. split; [reflexivity|]. cbn [m_forest m_strs]. split; [exact FR2|].
    assert (LH : length strs = length hist) by (clear - F2; induction F2; cbn [length]; congruence).
    split; [|split; [|exact LH]].
    - apply Forall2_app.
      + eapply Forall2_mono; [|exact F2]. intros x s (X1 & X2 & X3 & X4). split; [|auto]. unfold ms2.
        rewrite nth_error_app1 by (apply nth_lt in X1; rewrite L1'; exact X1). unfold ms1. rewrite nth_set by exact LT.
        apply Nat.eqb_neq in X2. rewrite X2. exact X1.
      + constructor; [|constructor]. unfold signTreeRoot, NewSTR. cbn [snd st_tree st_body st_ad]. split; [exact E2|]. split; [rewrite L1, L1'; intro X; cbn [hs_tree] in X; lia|].
        cbn [hs_body hs_ad]. rewrite Hc. split; reflexivity.
    - unfold signTreeRoot. cbn [fst]. unfold ms2. rewrite nth_error_app1 by (rewrite L1'; exact LT). exact E1.
  Qed.
  Lemma snap_grows (hist : list (SignedTreeRoot A)) s snap (q : list (N * SignedTreeRoot A)) :
    lift (nth_error hist) snap = lift Some q -> lift (nth_error (hist ++ [s])) snap = lift Some q.
  Proof.
    revert q. induction snap as [|[e k] snap IH]; intros [|[e' x] q] H; cbn [lift map fst snd] in *; try discriminate H; [reflexivity|].
    injection H as -> E T. f_equal; [f_equal; rewrite nth_error_app1 by (eapply nth_lt; exact E); exact E|]. exact (IH q T).
  Qed.

  Lemma new_refines ad sign vrf len r1 r2 q : NewPAD ser ad sign vrf len r1 r2 = Ok (Some q) ->
    exists p ms, h_NewPAD ser ad sign vrf len r1 r2 = Ok (Some p) /\ padrel p q [pd_latest q] ms.
  Proof.
    unfold NewPAD, h_NewPAD. intro H. destruct (NewMerkleTree r1) as [t|] eqn:NT; [|discriminate H].
    destruct (MakeRand r1) as [nonce|] eqn:MR; [|unfold NewMerkleTree in NT; rewrite MR in NT; discriminate NT].
    destruct (MakeRand r2) as [prev|] eqn:MR2; [|discriminate H].
    assert (V : vstep [] (FNew r1) = Ok [t]) by (cbn [vstep]; rewrite NT; reflexivity).
    destruct (step_refines _ _ _ _ forest_empty V) as (f & -> & FR). cbn [bind].
    destruct (sign_ok f [t] [] [] 0 t sign ad 0%N prev FR (Forall2_nil _) eq_refl) as (m & ms' & -> & FR' & F2 & Et & _). cbn [bind].
    destruct (signTreeRoot ser sign ad t 0 prev) as [t' s] eqn:ST. cbn [fst snd app length] in *. injection H as <-. cbn [pd_latest].
    eexists. exists ms'. split; [reflexivity|].
    assert (SO : slice_ok (make_slice len)) by (unfold slice_ok, make_slice; cbn [sl_len]; lia).
    destruct (append1_ok (make_slice len) 0%N SO) as (A1 & A2 & A3).
    constructor; cbn [hp_mem hp_sign hp_vrf hp_tree hp_snap hp_loaded hp_latest hp_ad pd_sign pd_vrf pd_tree pd_snap pd_loaded pd_cap pd_latest pd_ad]; auto.
    rewrite A2. cbn [make_slice sl_len sl_array]. rewrite repeat_length. reflexivity.
  Qed.

  Lemma update_refines p q hist ms ad : padrel p q hist ms ->
    exists p' ms', h_Update ser p ad = Ok p' /\ padrel p' (Update ser q ad) (hist ++ [pd_latest (Update ser q ad)]) ms'.
  Proof.
    intros [FR F2 Et SN LA SL LO CA SI VR AD]. unfold h_Update, Update, h_evict, evict.
    destruct (Forall2_nth _ _ _ _ _ F2 LA) as (la & Ela & _ & _ & BL & _).
    assert (EL : length (pd_loaded q) = sl_len (hp_loaded p)) by (rewrite <- LO; apply elements_length; exact SL).
    rewrite <- CA, EL. set (sl := hp_loaded p) in *.
    (* eviction *)
    assert (EV : exists snap loaded, (if Nat.eqb (sl_len sl) (length (sl_array sl)) then
        (fold_left (fun m i => map_del N.eqb (nth i (sl_array sl) 0%N) m) (seq 0 (length (sl_array sl) / 2)) (hp_snap p), drop_front sl (length (sl_array sl) / 2))
        else (hp_snap p, sl)) = (snap, loaded) /\ slice_ok loaded /\ length (sl_array loaded) = length (sl_array sl) /\
        exists snap' loaded', (if Nat.eqb (sl_len sl) (length (sl_array sl)) then
        (fold_left (fun s e => map_del N.eqb e s) (firstn (length (sl_array sl) / 2) (pd_loaded q)) (pd_snap q), skipn (length (sl_array sl) / 2) (pd_loaded q))
        else (pd_snap q, pd_loaded q)) = (snap', loaded') /\ lift (nth_error hist) snap = lift Some snap' /\ elements loaded = loaded').
    { destruct (Nat.eqb_spec (sl_len sl) (length (sl_array sl))) as [FU|NF].
      - set (n := length (sl_array sl) / 2). assert (Ln : n <= length (sl_array sl)) by (apply Nat.div_le_upper_bound; lia).
        destruct (drop_front_ok sl n SL ltac:(lia)) as (D1 & D2 & D3 & D4).
        eexists. eexists. split; [reflexivity|]. split; [exact D4|]. split; [exact D2|]. eexists. eexists. split; [reflexivity|].
        split; [|rewrite D1, LO; reflexivity]. rewrite fold_seq by exact Ln.
        assert (FE : firstn n (sl_array sl) = firstn n (pd_loaded q)) by (rewrite <- LO; unfold elements; rewrite FU, firstn_firstn, Nat.min_l by exact Ln; reflexivity).
        rewrite FE, <- lift_fold, SN, lift_fold. reflexivity.
      - eexists. eexists. split; [reflexivity|]. split; [exact SL|]. split; [reflexivity|]. eexists. eexists. split; [reflexivity|]. auto. }
    destruct EV as (snap & loaded & -> & SO & SC & snap' & loaded' & -> & SN' & LO').
    unfold index. rewrite Ela. cbn [bind]. rewrite BL, SI, AD.
    set (epoch := add64 (s_epoch (st_body (pd_latest q))) 1). set (prev := Digest [s_sig (st_body (pd_latest q))]).
    destruct (hp_mem p) as [f strs] eqn:EM. cbn [m_forest m_strs] in *.
    destruct (sign_ok f ms strs hist (hp_tree p) (pd_tree q) (pd_sign q) (pd_ad q) epoch prev FR F2 Et) as (m & ms' & -> & FR' & F2' & Et' & LH). cbn [bind].
    destruct (signTreeRoot ser (pd_sign q) (pd_ad q) (pd_tree q) epoch prev) as [t' s] eqn:ST. cbn [fst snd] in *.
    cbn [pd_latest]. eexists. exists ms'. split; [reflexivity|].
    destruct (append1_ok loaded epoch SO) as (A1 & A2 & A3).
    constructor; cbn [hp_mem hp_sign hp_vrf hp_tree hp_snap hp_loaded hp_latest hp_ad pd_sign pd_vrf pd_tree pd_snap pd_loaded pd_cap pd_latest pd_ad]; auto.
    - unfold map_set. cbn [lift map fst snd]. f_equal; [f_equal; rewrite LH; rewrite nth_error_app2, Nat.sub_diag by lia; reflexivity|].
      fold (lift (nth_error (hist ++ [s])) (map_del N.eqb epoch snap)). fold (lift (@Some (SignedTreeRoot A)) (map_del N.eqb epoch snap')).
      rewrite <- !lift_del. f_equal. apply snap_grows. exact SN'.
    - rewrite LH, nth_error_app2, Nat.sub_diag by lia. reflexivity.
    - rewrite A1, LO'. reflexivity.
    - rewrite A2, SC. f_equal. rewrite <- LO'. symmetry. apply elements_length. exact SO.
  Qed.

  Lemma set_refines p q hist ms r key value o : padrel p q hist ms -> PAD_Set q r key value = Ok o ->
    exists p' ms', h_Set p r key value = Ok (p', match o with Some _ => true | None => false end) /\
      padrel p' (match o with Some q' => q' | None => q end) hist ms'.
  Proof.
    intros [FR F2 Et SN LA SL LO CA SI VR AD] H. unfold PAD_Set, Index in H. unfold h_Set. rewrite VR.
    set (idx := fst (vrf_prove (pd_vrf q) key)) in *.
    destruct (Set_ (pd_tree q) r idx key value) as [[t'|]|] eqn:ST; [| |discriminate H]; cbn [bind option_map] in H; injection H as <-.
    - assert (NC : exists c, NewCommit r [key; value] = Some c) by (unfold Set_ in ST; destruct (NewCommit r [key; value]); [eauto|discriminate ST]).
      destruct NC as (c & NC).
      assert (V : vstep ms (FSet (hp_tree p) r idx key value) = Ok (set_nth ms (hp_tree p) t')) by (cbn [vstep]; unfold index; rewrite Et; cbn [bind]; rewrite ST; reflexivity).
      destruct (step_refines _ _ _ _ FR V) as (f & -> & FR'). cbn [bind]. rewrite NC. eexists. eexists. split; [reflexivity|].
      pose proof (nth_lt _ _ _ Et) as LT.
      constructor; cbn [hp_mem hp_sign hp_vrf hp_tree hp_snap hp_loaded hp_latest hp_ad m_forest m_strs pd_sign pd_vrf pd_tree pd_snap pd_loaded pd_cap pd_latest pd_ad]; auto.
      + exact FR'.
      + eapply Forall2_mono; [|exact F2]. intros x s (X1 & X2 & X3 & X4). split; [|auto]. rewrite nth_set by exact LT. apply Nat.eqb_neq in X2. rewrite X2. exact X1.
      + rewrite nth_set, Nat.eqb_refl by exact LT. reflexivity.
    - assert (NC : NewCommit r [key; value] = None).
      { unfold Set_ in ST. destruct (NewCommit r [key; value]); [|reflexivity].
        match type of ST with bind ?e _ = _ => destruct e; discriminate ST end. }
      assert (V : vstep ms (FSet (hp_tree p) r idx key value) = Ok ms) by (cbn [vstep]; unfold index; rewrite Et; cbn [bind]; rewrite ST; reflexivity).
      destruct (step_refines _ _ _ _ FR V) as (f & -> & FR'). cbn [bind]. rewrite NC. eexists. exists ms. split; [reflexivity|].
      constructor; cbn [hp_mem hp_sign hp_vrf hp_tree hp_snap hp_loaded hp_latest hp_ad m_forest m_strs]; auto.
  Qed.

  Lemma run_refines_pad ops : forall p q hist ms q' iss, padrel p q hist ms -> pad_run ser q ops = Ok (q', iss) ->
    exists p' ms', h_run ser p ops = Ok p' /\ padrel p' q' (hist ++ iss) ms'.
  Proof.
    induction ops as [|op ops IH]; intros p q hist ms q' iss R H; cbn [pad_run h_run] in *.
    - injection H as <- <-. rewrite app_nil_r. eauto.
    - destruct op as [r key value|ad]; cbn [pad_step h_step] in *.
      + destruct (PAD_Set q r key value) as [o|] eqn:PS; [|discriminate H]. cbn [bind] in H.
        destruct (set_refines p q hist ms r key value o R PS) as (p1 & ms1 & -> & R1). cbn [bind].
        destruct (pad_run ser (match o with Some p' => p' | None => q end) ops) as [[q2 iss2]|] eqn:RN; [|discriminate H]. cbn [bind] in H.
        injection H as <- <-. cbn [app]. eapply IH; eauto.
      + cbn [bind] in H. destruct (update_refines p q hist ms ad R) as (p1 & ms1 & -> & R1). cbn [bind].
        destruct (pad_run ser (Update ser q ad) ops) as [[q2 iss2]|] eqn:RN; [|discriminate H]. cbn [bind] in H.
        injection H as <- <-. destruct (IH p1 _ _ ms1 _ _ R1 RN) as (p2 & ms2 & E & R2). exists p2, ms2. split; [exact E|].
        rewrite <- app_assoc in R2. exact R2.
  Qed.

  (** ** Observations *)
  Lemma obs_str p q hist ms k s : padrel p q hist ms -> nth_error hist k = Some s ->
    (exists x, nth_error (m_strs (hp_mem p)) k = Some x /\ hs_body x = st_body s /\ hs_ad x = st_ad s) /\
    forall i, h_str_get (hp_mem p) k i = Get (st_tree s) i.
  Proof.
    intros [FR F2 _ _ _ _ _ _ _ _ _] E. destruct (Forall2_nth _ _ _ _ _ F2 E) as (x & Ex & X1 & X2 & X3 & X4).
    split; [eauto|]. intro i. unfold h_str_get, index. rewrite Ex. cbn [bind].
    destruct (forest_obs _ _ _ _ FR X1) as (t & Et & _ & G). rewrite Et. cbn [bind]. apply G.
  Qed.
  Lemma obs_getstr p q hist ms e : padrel p q hist ms -> exists o, h_GetSTR p e = Ok o /\
    match o with Some k => exists s, nth_error hist k = Some s /\ GetSTR q e = Some s | None => GetSTR q e = None end.
  Proof.
    intros R. pose proof R as [FR F2 Et SN LA SL LO CA SI VR AD]. unfold h_GetSTR, GetSTR, index.
    destruct (Forall2_nth _ _ _ _ _ F2 LA) as (la & -> & _ & _ & BL & _). cbn [bind]. rewrite BL.
    eexists. split; [reflexivity|]. destruct (N.leb (s_epoch (st_body (pd_latest q))) e); [eauto|].
    pose proof (f_equal (map_get N.eqb e) SN) as G. rewrite !lift_get in G.
    destruct (map_get N.eqb e (hp_snap p)) as [k|], (map_get N.eqb e (pd_snap q)) as [s|]; cbn [option_map] in G; try discriminate G; [|reflexivity].
    injection G as G. eauto.
  Qed.
  Lemma obs_lookup p q hist ms key e : padrel p q hist ms -> h_LookupInEpoch p key e = LookupInEpoch q key e.
  Proof.
    intro R. unfold h_LookupInEpoch, LookupInEpoch. destruct (obs_getstr p q hist ms e R) as (o & -> & O). cbn [bind].
    rewrite (pr_vrf _ _ _ _ R). destruct o as [k|]; [|rewrite O; reflexivity]. destruct O as (s & Es & ->).
    destruct (vrf_prove (pd_vrf q) key) as [lookup proof]. rewrite (proj2 (obs_str p q hist ms k s R Es)). reflexivity.
  Qed.
End Refine.
