(** What an observer of the directory learns about other users' bindings:
    specification (top) and the simulation between two directories that differ
    only in bindings the observer has not asked for.

    Model definitions used: Tree.v, PAD.v, Directory.v; nothing of the code is
    modelled here. *)
From Coq Require Import List NArith ZArith Lia Bool Arith.
From Verif Require Import Base Utils Crypto Tree STR PAD PADSpec Protocol Directory DirSpec.
Import ListNotations.

Section Spec.
  Context {C : Crypto}.

  (** What a registration makes public: the digest of the commitment it puts
      into the tree ([None]: no entropy, nothing is put). *)
  (** no line of its own in /repo: specification of C81 over protocol/directory/directory.go:129-345 *)
  Definition sealed (r : option bytes) (name key : bytes) : option bytes :=
    option_map c_value (NewCommit r [name; key]).

  (** [hide] replaces names by other names with the same VRF index, different
      names by different names, and keeps the names with an asked index. *)
  (** no line of its own in /repo: specification of C81 over protocol/directory/directory.go:129-345 *)
  Definition disguise (vk : bytes) (asked : bytes -> Prop) (hide : bytes -> bytes) : Prop :=
    (forall n, idx_of vk (hide n) = idx_of vk n) /\
    (forall n m, hide n = hide m -> n = m) /\
    (forall n, asked (idx_of vk n) -> hide n = n).

  (** Two calls that differ at most in the name, the key and the salt of a
      registration outside the asked indices, and agree in its index and in the
      digest that is published. *)
  (** no line of its own in /repo: specification of C81 over protocol/directory/directory.go:129-345 *)
  Inductive alike (vk : bytes) (asked : bytes -> Prop) (hide : bytes -> bytes) : dir_op -> dir_op -> Prop :=
  | al_register r r' n k k' :
      is_nil (hide n) = is_nil n -> is_nil k' = is_nil k ->
      sealed r' (hide n) k' = sealed r n k ->
      (asked (idx_of vk n) -> r' = r /\ k' = k) ->
      alike vk asked hide (DRegister r n k) (DRegister r' (hide n) k')
  | al_update : alike vk asked hide DUpdate DUpdate
  | al_policies t : alike vk asked hide (DSetPolicies t) (DSetPolicies t).

  (** The queries of an observer, each about one name or about none. *)
  (** no line of its own in /repo: specification of C81 over protocol/directory/directory.go:129-345 *)
  Inductive query :=
  | QLookup (name : bytes)
  | QLookupInEpoch (name : bytes) (epoch : N)
  | QMonitor (name : bytes) (a b : N)
  | QRegister (r : option bytes) (name key : bytes)
  | QHistory (a b : N)
  | QLatest.
  (** no line of its own in /repo: specification of C81 over protocol/directory/directory.go:129-345 *)
  Definition about (vk : bytes) (asked : bytes -> Prop) (q : query) : Prop :=
    match q with
    | QLookup n | QLookupInEpoch n _ | QMonitor n _ _ | QRegister _ n _ => asked (idx_of vk n)
    | QHistory _ _ | QLatest => True
    end.
  (** no line of its own in /repo: specification of C81 over protocol/directory/directory.go:129-345 *)
  Definition ask (d : Directory) (q : query) : result Response :=
    match q with
    | QLookup n => KeyLookup d n
    | QLookupInEpoch n e => KeyLookupInEpoch d n e
    | QMonitor n a b => Monitor d n a b
    | QRegister r n k => do (_, resp) <- Register d r n k; Ok resp
    | QHistory a b => GetSTRHistory d a b
    | QLatest => Ok (NewSTRHistoryRange [Some (LatestSTR d)])
    end.
End Spec.

(** ** The simulation *)
(** no line of its own in /repo: specification of C81 over protocol/directory/directory.go:129-345 *)
Definition rlike {A B} (R : A -> B -> Prop) (x : result A) (y : result B) : Prop :=
  match x, y with Ok a, Ok b => R a b | Panic, Panic => True | _, _ => False end.
Lemma rlike_bind {A B A' B'} (R : A -> B -> Prop) (S : A' -> B' -> Prop) x y f g :
  rlike R x y -> (forall a b, R a b -> rlike S (f a) (g b)) -> rlike S (bind x f) (bind y g).
Proof. destruct x, y; simpl; auto; contradiction. Qed.
(** no line of its own in /repo: specification of C81 over protocol/directory/directory.go:129-345 *)
Definition olike {A B} (R : A -> B -> Prop) (x : option A) (y : option B) : Prop :=
  match x, y with Some a, Some b => R a b | None, None => True | _, _ => False end.

Section Sim.
  Context {C : Crypto} (vk : bytes) (asked : bytes -> Prop) (hide : bytes -> bytes)
    (D : disguise vk asked hide).

  (** no line of its own in /repo: specification of C81 over protocol/directory/directory.go:129-345 *)
  Definition leaf_like (a b : leafdata) : Prop :=
    l_index a = l_index b /\ c_value (l_com a) = c_value (l_com b) /\ (asked (l_index a) -> a = b).
  (** no line of its own in /repo: specification of C81 over protocol/directory/directory.go:129-345 *)
  Fixpoint node_like (a b : node) : Prop :=
    match a, b with
    | Empty l i, Empty l' i' => l = l' /\ i = i'
    | Leaf l d, Leaf l' d' => l = l' /\ leaf_like d d'
    | Interior v lh rh l r, Interior v' lh' rh' l' r' =>
        v = v' /\ lh = lh' /\ rh = rh' /\ node_like l l' /\ node_like r r'
    | _, _ => False
    end.
  (** no line of its own in /repo: specification of C81 over protocol/directory/directory.go:129-345 *)
  Definition tree_like (a b : MerkleTree) : Prop :=
    t_nonce a = t_nonce b /\ t_hash a = t_hash b /\ node_like (t_root a) (t_root b).

  Lemma node_like_refl a : node_like a a.
  Proof. induction a; simpl; repeat split; auto. Qed.
  Lemma isEmpty_like a b : node_like a b -> isEmpty a = isEmpty b.
  Proof. destruct a, b; simpl; tauto || reflexivity. Qed.

  Lemma insert_like d d' bits rem : leaf_like d d' -> forall depth a b, node_like a b ->
    rlike node_like (insert d bits rem depth a) (insert d' bits rem depth b).
  Proof.
    intros L. induction rem as [|x rem IH]; intros depth a b N.
    - destruct a as [l i|l e|l lh rh al ar], b as [l' i'|l' e'|l' lh' rh' bl br]; simpl in N; try contradiction.
      + simpl. auto.
      + destruct N as (-> & NL). cbn [insert].
        destruct L as (L1 & L2 & L3). destruct NL as (N1 & N2 & N3). rewrite <- N1, <- L1.
        destruct (beq (l_index e) (l_index d)); simpl; [split; [reflexivity|repeat split; auto]|].
        destruct (GetNthBit (l_index e) depth) as [[|]|]; simpl; auto.
      + simpl. auto.
    - assert (DOWN : forall v lh rh al ar bl br, node_like al bl -> node_like ar br ->
         rlike node_like
           (if x then if isEmpty ar then Ok (Interior v lh None al (Leaf (depth + 1) d))
             else do r' <- insert d bits rem (depth + 1) ar; Ok (Interior v lh None al r')
            else if isEmpty al then Ok (Interior v None rh (Leaf (depth + 1) d) ar)
             else do l' <- insert d bits rem (depth + 1) al; Ok (Interior v None rh l' ar))
           (if x then if isEmpty br then Ok (Interior v lh None bl (Leaf (depth + 1) d'))
             else do r' <- insert d' bits rem (depth + 1) br; Ok (Interior v lh None bl r')
            else if isEmpty bl then Ok (Interior v None rh (Leaf (depth + 1) d') br)
             else do l' <- insert d' bits rem (depth + 1) bl; Ok (Interior v None rh l' br))).
      { intros v lh rh al ar bl br HL HR.
        rewrite <- (isEmpty_like _ _ HL), <- (isEmpty_like _ _ HR).
        destruct x.
        - destruct (isEmpty ar); [simpl; repeat split; auto; apply L|].
          eapply rlike_bind; [apply IH, HR|]. intros a' b' H. simpl. repeat split; auto.
        - destruct (isEmpty al); [simpl; repeat split; auto; apply L|].
          eapply rlike_bind; [apply IH, HL|]. intros a' b' H. simpl. repeat split; auto. }
      destruct a as [l i|l e|l lh rh al ar], b as [l' i'|l' e'|l' lh' rh' bl br]; simpl in N; try contradiction.
      + simpl. auto.
      + destruct N as (-> & NL). cbn [insert].
        pose proof NL as (N1 & N2 & N3). pose proof L as (L1 & L2 & L3). rewrite <- N1, <- L1.
        destruct (beq (l_index e) (l_index d)); [simpl; split; [reflexivity|exact L]|].
        destruct (GetNthBit (l_index e) depth) as [[|]|]; cbn [bind newInteriorNode]; [| |simpl; auto].
        * apply DOWN; simpl; auto.
        * apply DOWN; simpl; auto.
      + destruct N as (-> & -> & -> & HL & HR). cbn [insert]. apply DOWN; auto.
  Qed.

  Lemma hash_like nonce a : forall b, node_like a b ->
    fst (hash_node nonce a) = fst (hash_node nonce b) /\
    node_like (snd (hash_node nonce a)) (snd (hash_node nonce b)).
  Proof.
    induction a as [l i|l e|l lh rh al IHl ar IHr]; intros [l' i'|l' e'|l' lh' rh' bl br] N; simpl in N; try contradiction.
    - destruct N as (-> & ->). simpl. auto.
    - destruct N as (-> & N1 & N2 & N3). cbn [hash_node fst snd]. rewrite <- N1, <- N2. split; [reflexivity|].
      simpl. split; [reflexivity|]. repeat split; auto.
    - destruct N as (-> & -> & -> & HL & HR). cbn [hash_node].
      specialize (IHl _ HL). specialize (IHr _ HR).
      destruct (hash_node nonce al) as [hal al'], (hash_node nonce bl) as [hbl bl'],
        (hash_node nonce ar) as [har ar'], (hash_node nonce br) as [hbr br']; simpl in *.
      destruct IHl as (-> & IL), IHr as (-> & IR).
      destruct lh', rh'; simpl; repeat split; auto.
  Qed.
  Lemma recompute_like a b : tree_like a b -> tree_like (recomputeHash a) (recomputeHash b).
  Proof.
    intros (N & _ & R). unfold recomputeHash. rewrite <- N.
    pose proof (hash_like (t_nonce a) _ _ R) as (E & S).
    destruct (hash_node (t_nonce a) (t_root a)), (hash_node (t_nonce a) (t_root b)). simpl in *.
    subst. repeat split; auto.
  Qed.
  Lemma clone_node_like a : forall b, node_like a b -> node_like (clone_node a) (clone_node b).
  Proof.
    induction a as [l i|l e|l lh rh al IHl ar IHr]; intros [l' i'|l' e'|l' lh' rh' bl br] N; simpl in N; try contradiction; auto.
    destruct N as (-> & -> & -> & HL & HR). simpl. repeat split; auto.
  Qed.
  Lemma clone_like a b : tree_like a b -> tree_like (Clone a) (Clone b).
  Proof. intros (N & H & R). repeat split; simpl; auto. apply clone_node_like, R. Qed.

  Lemma get_loop_like bits a : forall depth b pruned, node_like a b ->
    rlike (fun x y => fst x = fst y /\ node_like (snd x) (snd y))
      (get_loop bits depth a pruned) (get_loop bits depth b pruned).
  Proof.
    induction a as [l i|l e|l lh rh al IHl ar IHr]; intros depth [l' i'|l' e'|l' lh' rh' bl br] pruned N; simpl in N; try contradiction.
    - simpl. auto.
    - simpl. auto.
    - destruct N as (-> & -> & -> & HL & HR). cbn [get_loop].
      destruct (index bits depth) as [[|]|]; simpl; auto.
  Qed.

  (** Authentication paths for any index: alike in what decides the control
      flow of the directory, and equal for asked indices. *)
  (** no line of its own in /repo: specification of C81 over protocol/directory/directory.go:129-345 *)
  Definition pn_like (a b : ProofNode) : Prop := pn_index a = pn_index b.
  (** no line of its own in /repo: specification of C81 over protocol/directory/directory.go:129-345 *)
  Definition ap_like (i : bytes) (a b : AuthPath) : Prop :=
    ap_lookup a = ap_lookup b /\ olike pn_like (ap_leaf a) (ap_leaf b) /\ (asked i -> a = b).

  Lemma get_like a b i : tree_like a b -> rlike (ap_like i) (Get a i) (Get b i).
  Proof.
    intros (N & H & R). unfold Get. eapply rlike_bind; [apply get_loop_like, R|].
    intros [p n] [p' n'] (E & S); simpl in E, S. subst p'.
    destruct n as [l x|l x|l lh rh al ar], n' as [l' x'|l' x'|l' lh' rh' bl br]; simpl in S; try contradiction.
    - destruct S as (-> & ->). cbn [proof_leaf bind rlike]. repeat split; simpl; rewrite N; reflexivity.
    - destruct S as (-> & S1 & S2 & S3). cbn [proof_leaf].
      rewrite <- S1. destruct (beq (l_index x) i) eqn:B; cbn [bind rlike].
      + apply beq_eq in B. repeat split; simpl; auto.
        intros A. rewrite <- B in A. rewrite (S3 A), N. reflexivity.
      + rewrite <- S2. repeat split; simpl; auto. intros _. rewrite N. reflexivity.
    - simpl. auto.
  Qed.

  (** no line of its own in /repo: specification of C81 over protocol/directory/directory.go:129-345 *)
  Definition str_like (a b : SignedTreeRoot Policies) : Prop :=
    tree_like (st_tree a) (st_tree b) /\ st_body a = st_body b /\ st_ad a = st_ad b.
  (** no line of its own in /repo: specification of C81 over protocol/directory/directory.go:129-345 *)
  Definition snap_like (a b : N * SignedTreeRoot Policies) : Prop := fst a = fst b /\ str_like (snd a) (snd b).
  (** no line of its own in /repo: specification of C81 over protocol/directory/directory.go:129-345 *)
  Definition pad_like (a b : PAD Policies) : Prop :=
    pd_sign a = pd_sign b /\ pd_vrf a = vk /\ pd_vrf b = vk /\ tree_like (pd_tree a) (pd_tree b) /\
    Forall2 snap_like (pd_snap a) (pd_snap b) /\ pd_loaded a = pd_loaded b /\ pd_cap a = pd_cap b /\
    str_like (pd_latest a) (pd_latest b) /\ pd_ad a = pd_ad b.
  (** no line of its own in /repo: specification of C81 over protocol/directory/directory.go:129-345 *)
  Definition tbs_like (a b : list (bytes * TemporaryBinding)) : Prop :=
    forall n, olike (fun x y => asked (idx_of vk n) -> x = y) (map_get beq n a) (map_get beq (hide n) b).
  (** no line of its own in /repo: specification of C81 over protocol/directory/directory.go:129-345 *)
  Definition dir_like (a b : Directory) : Prop :=
    pad_like (dr_pad a) (dr_pad b) /\ dr_useTBs a = dr_useTBs b /\ tbs_like (dr_tbs a) (dr_tbs b) /\
    dr_pol a = dr_pol b.

  Lemma snap_get_like e a b : Forall2 snap_like a b -> olike str_like (map_get N.eqb e a) (map_get N.eqb e b).
  Proof.
    induction 1 as [|[k s] [k' s'] a b (E & S) F IH]; simpl; auto. simpl in E, S. subst k'.
    destruct (N.eqb e k); simpl; auto.
  Qed.
  Lemma snap_del_like e a b : Forall2 snap_like a b -> Forall2 snap_like (map_del N.eqb e a) (map_del N.eqb e b).
  Proof.
    induction 1 as [|[k s] [k' s'] a b (E & S) F IH]; simpl; auto. simpl in E, S. subst k'.
    destruct (N.eqb e k); simpl; auto. constructor; auto. split; auto.
  Qed.
  Lemma snap_set_like e s s' a b : Forall2 snap_like a b -> str_like s s' ->
    Forall2 snap_like (map_set N.eqb e s a) (map_set N.eqb e s' b).
  Proof. intros F S. unfold map_set. constructor; [split; auto|apply snap_del_like, F]. Qed.
  Lemma snap_dels_like es : forall a b, Forall2 snap_like a b ->
    Forall2 snap_like (fold_left (fun s e => map_del N.eqb e s) es a) (fold_left (fun s e => map_del N.eqb e s) es b).
  Proof. induction es as [|e es IH]; simpl; auto. intros a b F. apply IH, snap_del_like, F. Qed.

  Lemma getstr_like a b e : pad_like a b -> olike str_like (GetSTR a e) (GetSTR b e).
  Proof.
    intros (_ & _ & _ & _ & F & _ & _ & L & _). unfold GetSTR. pose proof L as (_ & E & _). rewrite <- E.
    destruct (N.leb _ e); simpl; auto. apply snap_get_like, F.
  Qed.

  Lemma update_like a b ad : pad_like a b -> pad_like (Update Policies_Serialize a ad) (Update Policies_Serialize b ad).
  Proof.
    intros (E1 & V1 & V2 & T & F & LO & CA & L & AD). unfold Update.
    pose proof L as (LT & LB & LA).
    assert (EV : Forall2 snap_like (fst (evict a)) (fst (evict b)) /\ snd (evict a) = snd (evict b)).
    { unfold evict. rewrite <- LO, <- CA. destruct (Nat.eqb _ _); simpl; auto.
      split; auto. apply snap_dels_like, F. }
    destruct (evict a) as [sn lo], (evict b) as [sn' lo']. simpl in EV. destruct EV as (FS & <-).
    unfold signTreeRoot. rewrite <- LB, <- E1, <- AD, <- CA.
    pose proof (recompute_like _ _ T) as TR. pose proof (clone_like _ _ TR) as TC.
    assert (SL : forall e h, str_like (NewSTR Policies_Serialize (pd_sign a) (pd_ad a) (Clone (recomputeHash (pd_tree a))) e h)
                        (NewSTR Policies_Serialize (pd_sign a) (pd_ad a) (Clone (recomputeHash (pd_tree b))) e h)).
    { intros e h. pose proof TC as (_ & HC & _). unfold str_like, NewSTR. cbn [st_tree st_body st_ad].
      rewrite <- HC. split; [exact TC|split; reflexivity]. }
    unfold pad_like. cbn [pd_sign pd_vrf pd_tree pd_snap pd_loaded pd_cap pd_latest pd_ad].
    split; [reflexivity|]. split; [exact V1|]. split; [exact V2|]. split; [exact TR|].
    split; [apply snap_set_like; auto|]. split; [reflexivity|]. split; [reflexivity|].
    split; [apply SL|]. reflexivity.
  Qed.

  Lemma lookup_like a b n e : pad_like a b ->
    rlike (olike (ap_like (idx_of vk n))) (LookupInEpoch a n e) (LookupInEpoch b (hide n) e).
  Proof.
    intros P. pose proof P as (_ & V1 & V2 & _). unfold LookupInEpoch.
    pose proof (getstr_like a b e P) as G.
    destruct (GetSTR a e) as [s|], (GetSTR b e) as [s'|]; simpl in G; try contradiction; [|simpl; auto].
    rewrite V1, V2. destruct D as (D1 & D2 & D3). pose proof (D1 n) as I1. pose proof (D3 n) as H3. unfold idx_of in *.
    destruct (vrf_prove vk n) as [i p] eqn:PN. destruct (vrf_prove vk (hide n)) as [i' p'] eqn:PH. simpl in *. subst i'.
    eapply rlike_bind; [apply get_like, G|].
    intros x y (X1 & X2 & X3). simpl. repeat split; auto.
    intros A. rewrite (H3 A), PN in PH. injection PH as <-. rewrite (X3 A). reflexivity.
  Qed.

  Lemma found_like i x y : ap_like i x y -> leaf_matches x = leaf_matches y.
  Proof.
    intros (E & O & _). unfold leaf_matches. rewrite <- E.
    destruct (ap_leaf x), (ap_leaf y); simpl in O; try contradiction; auto. rewrite O. reflexivity.
  Qed.

  Lemma latest_like a b : dir_like a b -> LatestSTR a = LatestSTR b /\ latestEpoch a = latestEpoch b.
  Proof.
    intros ((_ & _ & _ & _ & _ & _ & _ & (_ & E & A) & _) & _). unfold LatestSTR, NewDirSTR, latestEpoch.
    rewrite E, A. auto.
  Qed.

  Lemma pset_like a b r r' n k k' : pad_like a b -> sealed r' (hide n) k' = sealed r n k ->
    (asked (idx_of vk n) -> r' = r /\ k' = k) ->
    rlike (olike pad_like) (PAD_Set a r n k) (PAD_Set b r' (hide n) k').
  Proof.
    intros P S A. pose proof P as (E1 & V1 & V2 & T & F & LO & CA & L & AD).
    destruct D as (D1 & D2 & D3). unfold PAD_Set, Index. rewrite V1, V2. fold (idx_of vk n) (idx_of vk (hide n)).
    rewrite D1. eapply rlike_bind with (R := olike tree_like).
    - unfold Set_. unfold sealed in S.
      destruct (NewCommit r [n; k]) as [c|] eqn:N1, (NewCommit r' [hide n; k']) as [c'|] eqn:N2; simpl in S; try discriminate S; [|simpl; auto].
      injection S as S. destruct T as (T1 & T2 & T3). unfold insertNode.
      assert (LL : leaf_like (mkLeaf n k (idx_of vk n) c) (mkLeaf (hide n) k' (idx_of vk n) c')).
      { split; [reflexivity|]. split; [exact (eq_sym S)|]. simpl. intros X. destruct (A X) as (-> & ->).
        rewrite (D3 n X) in N2 |- *. rewrite N1 in N2. injection N2 as <-. reflexivity. }
      pose proof (insert_like _ _ (ToBits (idx_of vk n)) (ToBits (idx_of vk n)) LL 0 _ _ T3) as I.
      destruct (insert _ _ _ 0 (t_root a.(pd_tree))) as [ra|], (insert _ _ _ 0 (t_root b.(pd_tree))) as [rb|];
        simpl in I; try contradiction; simpl; auto.
      split; auto.
    - intros [t|] [t'|] O; simpl in O; try contradiction; simpl; auto.
      repeat split; simpl; auto; apply O || apply L.
  Qed.

  Lemma newtb_like a b n k : dir_like a b -> asked (idx_of vk n) -> NewTB a n k = NewTB b n k.
  Proof.
    intros ((E1 & V1 & V2 & _ & _ & _ & _ & (_ & E & _) & _) & _) A.
    unfold NewTB, PAD_Sign, Index. rewrite V1, V2, E1, E. reflexivity.
  Qed.

  Lemma tbs_set_like a b n x y : tbs_like a b -> (asked (idx_of vk n) -> x = y) ->
    tbs_like (map_set beq n x a) (map_set beq (hide n) y b).
  Proof.
    intros T E m. destruct D as (_ & D2 & _).
    destruct (bytes_eq_dec m n) as [->|NE].
    - rewrite !(map_get_set_same beq beq_eq). simpl. auto.
    - rewrite !(map_get_set_other beq beq_eq); auto.
  Qed.

  Lemma register_like a b r r' n k k' : dir_like a b ->
    is_nil (hide n) = is_nil n -> is_nil k' = is_nil k -> sealed r' (hide n) k' = sealed r n k ->
    (asked (idx_of vk n) -> r' = r /\ k' = k) ->
    rlike (fun x y => dir_like (fst x) (fst y) /\ (asked (idx_of vk n) -> snd x = snd y))
      (Register a r n k) (Register b r' (hide n) k').
  Proof.
    intros L E1 E2 S A. unfold Register. rewrite E1, E2.
    destruct (is_nil n || is_nil k); [simpl; auto|].
    pose proof (latest_like a b L) as (LS & LE).
    pose proof L as (P & U & T & PO).
    unfold Lookup. change (s_epoch (st_body (pd_latest (dr_pad a)))) with (latestEpoch a).
    change (s_epoch (st_body (pd_latest (dr_pad b)))) with (latestEpoch b). rewrite <- LE.
    eapply rlike_bind; [apply lookup_like, P|].
    intros [x|] [y|] O; simpl in O; try contradiction; [|simpl; auto].
    rewrite <- (found_like _ _ _ O). destruct (leaf_matches x) as [[|]|] eqn:LM; cbn [bind]; [| |exact I].
    - simpl. split; auto. intros Q. rewrite LS. destruct O as (_ & _ & O). rewrite (O Q). reflexivity.
    - rewrite <- U. pose proof (T n) as TN.
      set (oa := if dr_useTBs a then map_get beq n (dr_tbs a) else None).
      set (ob := if dr_useTBs a then map_get beq (hide n) (dr_tbs b) else None).
      assert (OO : olike (fun x y => asked (idx_of vk n) -> x = y) oa ob) by (subst oa ob; destruct (dr_useTBs a); simpl; auto).
      clearbody oa ob. destruct oa as [ta|], ob as [tb|]; simpl in OO; try contradiction.
      + simpl. split; auto. intros Q. rewrite LS. destruct O as (_ & _ & O). rewrite (O Q), (OO Q). reflexivity.
      + eapply rlike_bind; [apply (pset_like _ _ r r' n k k' P S A)|].
        intros [pa|] [pb|] PP; simpl in PP; try contradiction; [|simpl; auto].
        cbn [rlike fst snd].
        assert (DL : dir_like
          (mkDirectory pa (dr_useTBs a) (match (if dr_useTBs a then Some (NewTB a n k) else None) with
             | Some tb => map_set beq n tb (dr_tbs a) | None => dr_tbs a end) (dr_pol a))
          (mkDirectory pb (dr_useTBs a) (match (if dr_useTBs a then Some (NewTB b (hide n) k') else None) with
             | Some tb => map_set beq (hide n) tb (dr_tbs b) | None => dr_tbs b end) (dr_pol b))).
        { split; [exact PP|]. split; [reflexivity|]. split; [|exact PO].
          simpl. destruct (dr_useTBs a); [|exact T]. apply tbs_set_like; auto.
          intros Q. destruct (A Q) as (-> & ->). destruct D as (_ & _ & D3). rewrite (D3 n Q). apply newtb_like; auto. }
        split; [exact DL|]. intros Q. destruct (latest_like _ _ DL) as (LS' & _).
        rewrite LS'. destruct O as (_ & _ & O). rewrite (O Q).
        destruct (A Q) as (-> & ->). pose proof D as (_ & _ & D3). rewrite (D3 n Q).
        rewrite (newtb_like a b n k L Q). reflexivity.
  Qed.

  Lemma step_like a b o o' : dir_like a b -> alike vk asked hide o o' ->
    rlike dir_like (dir_step a o) (dir_step b o').
  Proof.
    intros L [r r' n k k' E1 E2 S A| |t]; cbn [dir_step].
    - eapply rlike_bind; [apply (register_like a b r r' n k k' L E1 E2 S A)|].
      intros [da ra] [db rb] (X & _). exact X.
    - destruct L as (P & U & T & PO). unfold Directory_Update. rewrite <- PO, <- U. simpl.
      split; [apply update_like, P|]. split; [reflexivity|]. split; [|reflexivity]. intros n. simpl. exact I.
    - destruct L as (P & U & T & PO). unfold SetPolicies. rewrite <- PO, <- U. simpl.
      repeat split; auto; apply P.
  Qed.
  Lemma run_like os os' : Forall2 (alike vk asked hide) os os' -> forall a b, dir_like a b ->
    rlike dir_like (dir_run a os) (dir_run b os').
  Proof.
    induction 1 as [|o o' os os' H F IH]; intros a b L; [exact L|]. cbn [dir_run].
    eapply rlike_bind; [apply (step_like a b o o' L H)|]. auto.
  Qed.

  Lemma new_like dl0 sk size r1 r2 d : Directory_New dl0 vk sk size true r1 r2 = Ok d -> dir_like d d.
  Proof.
    unfold Directory_New, NewPAD, NewMerkleTree.
    destruct (MakeRand r1) as [x|]; [|discriminate]. destruct (MakeRand r2) as [y|]; [|discriminate].
    cbn [signTreeRoot]. unfold signTreeRoot, recomputeHash. cbn [t_nonce t_root newInteriorNode].
    cbn [hash_node]. cbn [bind]. intros [= <-].
    split; [|split; [reflexivity|split; [intros n; simpl; exact I|reflexivity]]].
    assert (TL : forall t : MerkleTree, tree_like t t) by (intros t; split; [reflexivity|split; [reflexivity|apply node_like_refl]]).
    assert (SL : forall s : SignedTreeRoot Policies, str_like s s) by (intros s; split; [apply TL|split; reflexivity]).
    unfold pad_like. cbn [dr_pad pd_sign pd_vrf pd_tree pd_snap pd_loaded pd_cap pd_latest pd_ad].
    repeat (split; [first [reflexivity|apply TL|apply SL|idtac]|]); try reflexivity.
    cbn [map_set map_del]. constructor; [split; [reflexivity|apply SL]|constructor].
  Qed.

  Lemma get_dirstr_like a b e : pad_like a b -> NewDirSTR' (GetSTR a e) = NewDirSTR' (GetSTR b e).
  Proof.
    intros P. pose proof (getstr_like a b e P) as G.
    destruct (GetSTR a e), (GetSTR b e); simpl in G; try contradiction; auto.
    destruct G as (_ & E & A). unfold NewDirSTR', NewDirSTR. rewrite E, A. reflexivity.
  Qed.
  Lemma mapM_ext {A B} (f g : A -> result B) l : (forall x, f x = g x) -> mapM f l = mapM g l.
  Proof. intros E. induction l as [|x l IH]; simpl; auto. rewrite E, IH. reflexivity. Qed.

  Lemma lookup_asked a b n e : pad_like a b -> asked (idx_of vk n) -> LookupInEpoch a n e = LookupInEpoch b n e.
  Proof.
    intros P Q. pose proof (lookup_like a b n e P) as L. pose proof D as (_ & _ & D3). rewrite (D3 n Q) in L.
    destruct (LookupInEpoch a n e) as [[x|]|], (LookupInEpoch b n e) as [[y|]|]; simpl in L; try contradiction; auto.
    destruct L as (_ & _ & L). rewrite (L Q). reflexivity.
  Qed.

  Lemma monitor_asked a b n eps : pad_like (dr_pad a) (dr_pad b) -> asked (idx_of vk n) ->
    monitor_loop a n eps = monitor_loop b n eps.
  Proof.
    intros P Q. induction eps as [|e eps IH]; [reflexivity|]. cbn [monitor_loop].
    rewrite (lookup_asked _ _ n e P Q), (get_dirstr_like _ _ e P), IH. reflexivity.
  Qed.

  Lemma ask_like a b q : dir_like a b -> about vk asked q -> ask a q = ask b q.
  Proof.
    intros L Q. pose proof (latest_like a b L) as (LS & LE). pose proof L as (P & U & T & PO).
    destruct q as [n|n e|n x y|r n k|x y|]; cbn [ask about] in *.
    - unfold KeyLookup, Lookup. change (s_epoch (st_body (pd_latest (dr_pad a)))) with (latestEpoch a).
      change (s_epoch (st_body (pd_latest (dr_pad b)))) with (latestEpoch b).
      rewrite <- LE, <- LS, (lookup_asked _ _ n _ P Q), <- U.
      pose proof D as (_ & _ & D3). pose proof (T n) as TN. rewrite (D3 n Q) in TN.
      assert (EQ : map_get beq n (dr_tbs a) = map_get beq n (dr_tbs b)).
      { destruct (map_get beq n (dr_tbs a)), (map_get beq n (dr_tbs b)); simpl in TN; try contradiction; auto.
        rewrite (TN Q). reflexivity. }
      rewrite EQ. reflexivity.
    - unfold KeyLookupInEpoch. rewrite <- LE, (lookup_asked _ _ n _ P Q).
      destruct (is_nil n || _); [reflexivity|]. destruct (LookupInEpoch (dr_pad b) n e) as [[ap|]|]; cbn [bind]; auto.
      destruct (epochs e (latestEpoch a)) as [eps|]; cbn [bind]; auto.
      rewrite (mapM_ext _ _ eps (fun ep => get_dirstr_like _ _ ep P)). reflexivity.
    - unfold Monitor. rewrite <- LE. destruct (_ || _ || _); [reflexivity|].
      destruct (epochs x _) as [eps|]; cbn [bind]; auto. rewrite (monitor_asked a b n eps P Q). reflexivity.
    - pose proof D as (_ & _ & D3). pose proof (register_like a b r r n k k L) as R. rewrite (D3 n Q) in R.
      specialize (R eq_refl eq_refl eq_refl (fun _ => conj eq_refl eq_refl)).
      destruct (Register a r n k) as [[da ra]|], (Register b r n k) as [[db rb]|]; simpl in R; try contradiction; auto.
      destruct R as (_ & R). simpl. rewrite (R Q). reflexivity.
    - unfold GetSTRHistory. rewrite <- LE. destruct (_ || _); [reflexivity|].
      destruct (epochs x _) as [eps|]; cbn [bind]; auto.
      rewrite (mapM_ext _ _ eps (fun ep => get_dirstr_like _ _ ep P)). reflexivity.
    - rewrite LS. reflexivity.
  Qed.
End Sim.
