(** The pointer-level tree refines the value-level one; trees with disjoint
    footprints do not interfere. *)
From Coq Require Import List NArith Lia Bool Arith.
From Verif Require Import Base Utils Crypto Tree TreeFacts TreeSpec TreeHeap.
Import ListNotations.

(** ** Heap updates *)
Lemma upd_same h a c : a < length h -> nth_error (upd h a c) a = Some c.
Proof. intro L. unfold upd. rewrite nth_error_app2; rewrite firstn_length, Nat.min_l by lia; [|lia]. rewrite Nat.sub_diag. reflexivity. Qed.
Lemma upd_other h a c x : x <> a -> a < length h -> nth_error (upd h a c) x = nth_error h x.
Proof.
  intros N L. unfold upd. destruct (Nat.lt_ge_cases x a) as [X|X].
  - rewrite nth_error_app1 by (rewrite firstn_length; lia).
    rewrite <- (firstn_skipn a h) at 2. rewrite nth_error_app1 by (rewrite firstn_length; lia). reflexivity.
  - rewrite nth_error_app2 by (rewrite firstn_length; lia). rewrite firstn_length, Nat.min_l by lia.
    destruct (x - a) as [|k] eqn:E; [lia|]. cbn [nth_error].
    rewrite <- (firstn_skipn (S a) h) at 2. rewrite nth_error_app2 by (rewrite firstn_length; lia).
    rewrite firstn_length, Nat.min_l by lia. f_equal. lia.
Qed.
Lemma upd_length h a c : a < length h -> length (upd h a c) = length h.
Proof. intro L. unfold upd. rewrite app_length, firstn_length, Nat.min_l by lia. cbn [length]. rewrite skipn_length. lia. Qed.
Lemma nth_lt {A} (l : list A) i x : nth_error l i = Some x -> i < length l.
Proof. intro H. apply nth_error_Some. congruence. Qed.

(** ** Representation: pointer [p], whose parent field must be [par] if it is a
    leaf, represents the value [n]; [fp] are the addresses involved. *)
Fixpoint rep (h : heap) (par : option nat) (p : nat) (n : node) (fp : list nat) : Prop :=
  match n with
  | Empty lvl i => (exists q, nth_error h p = Some (CEmpty q lvl i)) /\ fp = [p]
  | Leaf lvl d => nth_error h p = Some (CLeaf par lvl d) /\ fp = [p]
  | Interior lvl lh rh l r => exists q pl pr f1 f2,
      nth_error h p = Some (CInt q lvl lh rh (Some pl) (Some pr)) /\
      rep h (Some p) pl l f1 /\ rep h (Some p) pr r f2 /\ fp = p :: f1 ++ f2
  end.

Lemma rep_frame h h' : forall n par p fp, (forall x, In x fp -> nth_error h' x = nth_error h x) ->
  rep h par p n fp -> rep h' par p n fp.
Proof.
  induction n as [lvl i|lvl d|lvl lh rh l IHl r IHr]; intros par p fp F R; cbn [rep] in *.
  - destruct R as ((q & R) & ->). rewrite F by (left; reflexivity). eauto.
  - destruct R as (R & ->). rewrite F by (left; reflexivity). eauto.
  - destruct R as (q & pl & pr & f1 & f2 & R & Rl & Rr & ->). exists q, pl, pr, f1, f2.
    rewrite F by (left; reflexivity). split; auto. split; [|split; auto].
    + apply IHl; auto. intros x Hx. apply F. right. apply in_app_iff. auto.
    + apply IHr; auto. intros x Hx. apply F. right. apply in_app_iff. auto.
Qed.
Lemma rep_lt h : forall n par p fp, rep h par p n fp -> forall x, In x fp -> x < length h.
Proof.
  induction n as [lvl i|lvl d|lvl lh rh l IHl r IHr]; intros par p fp R x Hx; cbn [rep] in *.
  - destruct R as ((q & R) & ->). destruct Hx as [<-|[]]. eapply nth_lt; eauto.
  - destruct R as (R & ->). destruct Hx as [<-|[]]. eapply nth_lt; eauto.
  - destruct R as (q & pl & pr & f1 & f2 & R & Rl & Rr & ->). destruct Hx as [<-|Hx]; [eapply nth_lt; eauto|].
    apply in_app_iff in Hx. destruct Hx; eauto.
Qed.
Lemma rep_root h n par p fp : rep h par p n fp -> In p fp.
Proof. destruct n; cbn [rep]; [intros (_ & ->)|intros (_ & ->)|intros (? & ? & ? & ? & ? & _ & _ & _ & ->)]; left; reflexivity. Qed.
Lemma rep_cell h n par p fp : rep h par p n fp -> exists c, nth_error h p = Some c /\ cell_empty c = isEmpty n.
Proof.
  destruct n; cbn [rep]; [intros ((q & R) & _)|intros (R & _)|intros (? & ? & ? & ? & ? & R & _)]; eexists; (split; [exact R|reflexivity]).
Qed.

Lemma rep_fun h : forall n par p fp fp', rep h par p n fp -> rep h par p n fp' -> fp = fp'.
Proof.
  induction n as [| |lvl lh rh l IHl r IHr]; intros par p fp fp' R R'; cbn [rep] in *.
  - destruct R as (_ & ->), R' as (_ & ->). reflexivity.
  - destruct R as (_ & ->), R' as (_ & ->). reflexivity.
  - destruct R as (q & pl & pr & f1 & f2 & R & Rl & Rr & ->), R' as (q' & pl' & pr' & f1' & f2' & R' & Rl' & Rr' & ->).
    rewrite R in R'. injection R' as <- <- <-. rewrite (IHl _ _ _ _ Rl Rl'), (IHr _ _ _ _ Rr Rr'). reflexivity.
Qed.

(** What an operation on one tree may do to the heap: addresses outside its
    footprint [fp] and below [lim] keep their contents, the new footprint
    consists of old addresses of the tree and of new ones. *)
Record ext (h h' : heap) (fp fp' : list nat) (a : nat) : Prop := {
  ex_len : length h <= length h';
  ex_keep : forall x, x < length h -> ~ In x fp -> x <> a -> nth_error h' x = nth_error h x;
  ex_fp : forall x, In x fp' -> In x fp \/ x = a \/ length h <= x;
  ex_nodup : NoDup fp'
}.

Lemma NoDup_app_split {A} (l1 l2 : list A) : NoDup (l1 ++ l2) -> NoDup l1 /\ NoDup l2 /\ (forall x, In x l1 -> ~ In x l2).
Proof.
  induction l1 as [|x l1 IH]; cbn [app]; intro H; [repeat split; auto using NoDup_nil; intros ? []|].
  inversion H as [|? ? N D]; subst. destruct (IH D) as (D1 & D2 & D3). rewrite in_app_iff in N. split; [constructor; tauto|].
  split; auto. intros y [<-|Y]; [tauto|auto].
Qed.
Lemma NoDup_app_join {A} (l1 l2 : list A) : NoDup l1 -> NoDup l2 -> (forall x, In x l1 -> ~ In x l2) -> NoDup (l1 ++ l2).
Proof.
  induction l1 as [|x l1 IH]; cbn [app]; intros D1 D2 D; auto. inversion D1; subst. constructor.
  - rewrite in_app_iff. intros [X|X]; [contradiction|]. apply (D x); auto. left. reflexivity.
  - apply IH; auto. intros y Y. apply D. right. exact Y.
Qed.

(** The insertion loop, entered at an interior node. *)
Definition is_int (n : node) : Prop := match n with Interior _ _ _ _ _ => True | _ => False end.

Lemma loop_refines a d bits : forall rem depth ptr h par n fp n',
  rep h par ptr n fp -> NoDup fp -> is_int n -> ~ In a fp -> a < length h ->
  insert d bits rem depth n = Ok n' ->
  exists h' fp', insert_loop a d bits rem depth ptr h = Ok h' /\ rep h' par ptr n' fp' /\ is_int n' /\ ext h h' fp fp' a /\ In ptr fp'.
Proof.
  induction rem as [|b rem IH]; intros depth ptr h par n fp n' R D IN NA LA E.
  { destruct n; try contradiction. cbn [insert] in E. discriminate E. }
  destruct n as [| |lvl lh rh l r]; try contradiction. clear IN.
  destruct R as (q & pl & pr & f1 & f2 & R & Rl & Rr & ->).
  inversion D as [|? ? NP D']; subst. destruct (NoDup_app_split _ _ D') as (D1 & D2 & D12).
  rewrite in_app_iff in NP. cbn [In] in NA. rewrite in_app_iff in NA.
  pose proof (nth_lt _ _ _ R) as LP.
  cbn [insert] in E. cbn [insert_loop]. rewrite R. cbv zeta.
  (* replacing one child's tree, after the loop on it *)
  assert (BLD : forall (side : bool) lh' rh' h1 h' pc n'c fpc,
     nth_error h1 ptr = Some (CInt q lvl lh' rh' (Some (if side then pl else pc)) (Some (if side then pc else pr))) -> length h <= length h1 ->
     (forall x, x < length h -> x <> ptr -> ~ In x (if side then f2 else f1) -> x <> a -> nth_error h1 x = nth_error h x) ->
     rep h' (Some ptr) pc n'c fpc -> length h1 <= length h' ->
     (forall x, x < length h1 -> ~ In x (if side then f2 else f1) -> ~ In x fpc -> x <> a -> nth_error h' x = nth_error h1 x) ->
     (forall x, In x fpc -> In x (if side then f2 else f1) \/ x = a \/ length h <= x) -> NoDup fpc ->
     exists fp', rep h' par ptr (Interior lvl lh' rh' (if side then l else n'c) (if side then n'c else r)) fp' /\
       ext h h' (ptr :: f1 ++ f2) fp' a /\ In ptr fp').
  { intros side lh' rh' h1 h' pc n'c fpc P1 L1 K1 Rc L2 K2 F2 N2.
    assert (OF : forall x, In x (if side then f1 else f2) -> x < length h /\ x <> ptr /\ ~ In x (if side then f2 else f1) /\ x <> a /\ ~ In x fpc).
    { intros x Hx. assert (Lx : x < length h) by (destruct side; [exact (rep_lt _ _ _ _ _ Rl _ Hx)|exact (rep_lt _ _ _ _ _ Rr _ Hx)]).
      assert (x <> ptr) by (intros ->; apply NP; destruct side; auto).
      assert (~ In x (if side then f2 else f1)) by (intro Y; destruct side; [apply (D12 x); auto|apply (D12 x); auto]).
      assert (x <> a) by (intros ->; apply NA; destruct side; auto).
      repeat (split; auto). intro Y. destruct (F2 x Y) as [|[|]]; [contradiction|contradiction|lia]. }
    assert (PF : ~ In ptr fpc).
    { intro Y. destruct (F2 ptr Y) as [X|[X|X]]; [apply NP; destruct side; auto| apply NA; auto | lia]. }
    assert (PP : nth_error h' ptr = nth_error h1 ptr).
    { apply K2; [lia| |exact PF|intro X; subst; apply NA; auto]. intro X. apply NP. destruct side; auto. }
    assert (KO : forall x, In x (if side then f1 else f2) -> nth_error h' x = nth_error h x).
    { intros x Hx. destruct (OF x Hx) as (X1 & X2 & X3 & X4 & X5). rewrite K2; [|lia|exact X3|exact X5|exact X4]. apply K1; auto. }
    exists (ptr :: (if side then f1 else fpc) ++ (if side then fpc else f2)). split; [|split].
    - exists q, (if side then pl else pc), (if side then pc else pr), (if side then f1 else fpc), (if side then fpc else f2).
      rewrite PP, P1. split; auto. split; [|split; auto].
      + destruct side; auto. eapply rep_frame; [|exact Rl]. exact KO.
      + destruct side; auto. eapply rep_frame; [|exact Rr]. exact KO.
    - constructor.
      + lia.
      + intros x Lx NI NX. cbn [In] in NI. rewrite in_app_iff in NI.
        rewrite K2; [|lia| | |exact NX].
        * apply K1; [exact Lx|intro X; apply NI; auto|intro X; apply NI; destruct side; auto|exact NX].
        * intro X. apply NI. destruct side; auto.
        * intro X. destruct (F2 x X) as [Y|[Y|Y]]; [apply NI; destruct side; auto|contradiction|lia].
      + intros x Hx. cbn [In] in Hx |- *. rewrite in_app_iff in Hx |- *. destruct Hx as [Hx|[Hx|Hx]]; auto.
        * destruct side; auto. destruct (F2 x Hx) as [|[|]]; auto.
        * destruct side; auto. destruct (F2 x Hx) as [|[|]]; auto.
      + constructor.
        * rewrite in_app_iff. destruct side; tauto.
        * destruct side; apply NoDup_app_join; auto; intros x X Y.
          -- destruct (OF x X) as (_ & _ & _ & _ & Z). contradiction.
          -- destruct (OF x Y) as (_ & _ & _ & _ & Z). contradiction.
    - left. reflexivity. }
  (* the step into the child at [pc] of side [b], in the heap [h1] with the hash cleared *)
  assert (STEP : forall (pc : nat) (nc : node) (fc : list nat) lh' rh',
     pc = (if b then pr else pl) -> nc = (if b then r else l) -> fc = (if b then f2 else f1) ->
     rep h (Some ptr) pc nc fc -> NoDup fc -> isEmpty nc = false ->
     forall n'c, insert d bits rem (depth + 1) nc = Ok n'c ->
     let h1 := upd h ptr (CInt q lvl lh' rh' (Some pl) (Some pr)) in
     exists h' pc' fpc, insert_loop a d bits rem (depth + 1) pc h1 = Ok h' /\
       nth_error h' ptr = Some (CInt q lvl lh' rh' (Some (if b then pl else pc')) (Some (if b then pc' else pr))) /\
       rep h' (Some ptr) pc' n'c fpc /\ length h <= length h' /\
       (forall x, x < length h -> x <> ptr -> ~ In x fc -> x <> a -> nth_error h' x = nth_error h x) /\
       (forall x, In x fpc -> In x fc \/ x = a \/ length h <= x) /\ NoDup fpc).
  { intros pc nc fc lh' rh' -> -> -> Rc Dc NE n'c Ec h1.
    set (pc := if b then pr else pl) in *. set (nc := if b then r else l) in *. set (fc := if b then f2 else f1) in *.
    assert (PC : ~ In ptr fc) by (intro X; apply NP; unfold fc in X; destruct b; auto).
    assert (AC : ~ In a fc) by (intro X; apply NA; unfold fc in X; destruct b; auto).
    assert (L1 : length h1 = length h) by (apply upd_length; exact LP).
    assert (P1 : nth_error h1 ptr = Some (CInt q lvl lh' rh' (Some pl) (Some pr))) by (apply upd_same; exact LP).
    assert (K1 : forall x, x <> ptr -> nth_error h1 x = nth_error h x) by (intros x X; apply upd_other; auto).
    assert (Rc1 : rep h1 (Some ptr) pc nc fc).
    { eapply rep_frame; [|exact Rc]. intros x Hx. apply K1. intros ->. contradiction. }
    assert (AP : a <> ptr) by (intros ->; apply NA; auto).
    destruct nc as [lvl0 i0|lvl0 old|lvl0 lh0 rh0 l0 r0] eqn:ENC; [discriminate NE| |].
    - (* leaf *)
      cbn [rep] in Rc1. destruct Rc1 as (RC & EFC).
      assert (PCP : pc <> ptr) by (intros X; apply PC; rewrite EFC; left; auto).
      assert (PCA : a <> pc) by (intros X; apply AC; rewrite EFC; left; auto).
      pose proof (nth_lt _ _ _ RC) as LC.
      assert (UNF : insert_loop a d bits rem (depth + 1) pc h1 =
        if beq (l_index old) (l_index d) then Ok (upd (upd h1 a (CLeaf (Some ptr) lvl0 d)) pc (CLeaf (Some ptr) lvl0 d))
        else do direction <- GetNthBit (l_index old) (depth + 1);
          let ni := length h1 + 2 in
          let h2 := alloc_interior h1 (Some ptr) (depth + 1) (firstn (depth + 1) bits) in
          let h3 := if direction : bool
                     then upd h2 ni (CInt (Some ptr) (depth + 1) None None (Some (ni - 2)) (Some pc))
                     else upd h2 ni (CInt (Some ptr) (depth + 1) None None (Some pc) (Some (ni - 1))) in
          let h4 := upd h3 pc (CLeaf (Some ni) (depth + 1 + 1) old) in
          match nth_error h4 ptr with
          | Some (CInt ppar plvl plh prh pl pr) =>
                let h5 := if is_ptr pl pc
                         then upd h4 ptr (CInt ppar plvl plh prh (Some ni) pr)
                         else upd h4 ptr (CInt ppar plvl plh prh pl (Some ni)) in
                match nth_error h5 ni with Some (CInt _ _ _ _ _ _) => insert_loop a d bits rem (depth + 1) ni h5 | _ => Panic end
          | _ => Panic
          end).
      { destruct rem; cbn [insert_loop]; rewrite RC; destruct (beq (l_index old) (l_index d)); auto;
        destruct (GetNthBit (l_index old) (depth + 1)) as [dir|]; cbn [bind]; auto; cbv zeta;
        match goal with |- context [match nth_error ?h4 ptr with _ => _ end] => destruct (nth_error h4 ptr) as [[| |? ? ? ? ? ?]|] end; auto;
        match goal with |- context [match nth_error ?h5 ?ni with _ => _ end] => destruct (nth_error h5 ni) as [[| |? ? ? ? [?|] [?|]]|] end; auto. }
      assert (EI : insert d bits rem (depth + 1) (Leaf lvl0 old) =
        if beq (l_index old) (l_index d) then Ok (Leaf lvl0 d)
        else do direction <- GetNthBit (l_index old) (depth + 1);
          insert d bits rem (depth + 1)
            (if direction : bool then Interior (depth + 1) None None (Empty (depth + 1 + 1) (ToBytes (firstn (depth + 1) bits ++ [false]))) (Leaf (depth + 1 + 1) old)
             else Interior (depth + 1) None None (Leaf (depth + 1 + 1) old) (Empty (depth + 1 + 1) (ToBytes (firstn (depth + 1) bits ++ [true]))))).
      { destruct rem; cbn [insert newInteriorNode]; destruct (beq (l_index old) (l_index d)); auto;
        destruct (GetNthBit (l_index old) (depth + 1)) as [[|]|]; cbn [bind]; auto. }
      rewrite UNF. rewrite EI in Ec. clear UNF EI.
      destruct (beq (l_index old) (l_index d)).
      + injection Ec as <-.
        set (h2 := upd h1 a (CLeaf (Some ptr) lvl0 d)). assert (LA1 : a < length h1) by lia.
        assert (L2 : length h2 = length h1) by (apply upd_length; exact LA1).
        exists (upd h2 pc (CLeaf (Some ptr) lvl0 d)), pc, [pc]. split; auto. split.
        { rewrite upd_other by (auto; lia). unfold h2. rewrite upd_other by (auto; lia). rewrite P1. unfold pc. destruct b; reflexivity. }
        split; [cbn [rep]; split; auto; apply upd_same; lia|]. split; [rewrite upd_length; lia|]. split.
        { intros x Lx X1 X2 X3. rewrite upd_other; [|intros ->; apply X2; rewrite EFC; left; auto|lia].
          unfold h2. rewrite upd_other by (auto; lia). apply K1; auto. }
        split; [intros x Hx; left; rewrite EFC; exact Hx|]. constructor; [intros []|constructor].
      + destruct (GetNthBit (l_index old) (depth + 1)) as [dir|]; [|discriminate Ec]. cbn [bind] in *. cbv zeta.
        set (ni := length h1 + 2). set (h2 := alloc_interior h1 (Some ptr) (depth + 1) (firstn (depth + 1) bits)).
        assert (L2 : length h2 = length h1 + 3) by (unfold h2, alloc_interior; rewrite app_length; reflexivity).
        assert (A0 : nth_error h2 (length h1) = Some (CEmpty (Some ni) (depth + 1 + 1) (ToBytes (firstn (depth + 1) bits ++ [false])))).
        { unfold h2, alloc_interior. rewrite nth_error_app2 by lia. rewrite Nat.sub_diag. reflexivity. }
        assert (A1 : nth_error h2 (length h1 + 1) = Some (CEmpty (Some ni) (depth + 1 + 1) (ToBytes (firstn (depth + 1) bits ++ [true])))).
        { unfold h2, alloc_interior. rewrite nth_error_app2 by lia. replace (length h1 + 1 - length h1) with 1 by lia. reflexivity. }
        assert (A2 : forall x, x < length h1 -> nth_error h2 x = nth_error h1 x).
        { intros x X. unfold h2, alloc_interior. apply nth_error_app1. exact X. }
        assert (LNI : ni < length h2) by (unfold ni; lia).
        set (c3 := if dir then CInt (Some ptr) (depth + 1) None None (Some (ni - 2)) (Some pc)
                   else CInt (Some ptr) (depth + 1) None None (Some pc) (Some (ni - 1))).
        set (h3 := upd h2 ni c3).
        assert (E3 : (if dir then upd h2 ni (CInt (Some ptr) (depth + 1) None None (Some (ni - 2)) (Some pc))
                   else upd h2 ni (CInt (Some ptr) (depth + 1) None None (Some pc) (Some (ni - 1)))) = h3).
        { unfold h3, c3. destruct dir; reflexivity. }
        rewrite E3.
        assert (L3 : length h3 = length h2) by (apply upd_length; exact LNI).
        set (h4 := upd h3 pc (CLeaf (Some ni) (depth + 1 + 1) old)).
        assert (L4 : length h4 = length h2) by (unfold h4; rewrite upd_length; lia).
        assert (NNI : ptr <> ni /\ pc <> ni /\ a <> ni) by (unfold ni; lia). destruct NNI as (N1 & N2 & N3).
        assert (P4 : nth_error h4 ptr = Some (CInt q lvl lh' rh' (Some pl) (Some pr))).
        { unfold h4. rewrite upd_other by (auto; lia). unfold h3. rewrite upd_other by (auto; lia). rewrite A2 by lia. exact P1. }
        rewrite P4.
        set (c5 := CInt q lvl lh' rh' (Some (if b then pl else ni)) (Some (if b then ni else pr))).
        set (h5 := upd h4 ptr c5).
        assert (E5 : (if is_ptr (Some pl) pc then upd h4 ptr (CInt q lvl lh' rh' (Some ni) (Some pr))
                      else upd h4 ptr (CInt q lvl lh' rh' (Some pl) (Some ni))) = h5).
        { unfold h5, c5. cbn [is_ptr]. destruct (Nat.eqb_spec pl pc) as [X|X].
          - destruct b; [|reflexivity]. exfalso. unfold pc in X. apply (D12 pl); [exact (rep_root _ _ _ _ _ Rl)|].
            rewrite X. unfold fc in EFC. rewrite EFC. left. reflexivity.
          - destruct b; [reflexivity|]. exfalso. apply X. reflexivity. }
        rewrite E5. assert (L5 : length h5 = length h2) by (unfold h5; rewrite upd_length; lia).
        assert (K5 : forall x, x <> ptr -> x <> pc -> x <> ni -> nth_error h5 x = nth_error h2 x).
        { intros x X1 X2 X3. unfold h5. rewrite upd_other by (auto; lia). unfold h4. rewrite upd_other by (auto; lia).
          unfold h3. rewrite upd_other by (auto; lia). reflexivity. }
        assert (C5 : nth_error h5 ni = Some c3).
        { unfold h5. rewrite upd_other by (auto; lia). unfold h4. rewrite upd_other by (auto; lia). unfold h3. apply upd_same. exact LNI. }
        assert (Q5 : nth_error h5 pc = Some (CLeaf (Some ni) (depth + 1 + 1) old)).
        { unfold h5. rewrite upd_other by (auto; lia). apply upd_same. lia. }
        assert (M5 : match nth_error h5 ni with Some (CInt _ _ _ _ _ _) => insert_loop a d bits rem (depth + 1) ni h5 | _ => Panic end =
                     insert_loop a d bits rem (depth + 1) ni h5) by (rewrite C5; unfold c3; destruct dir; reflexivity).
        rewrite M5.
        match type of Ec with insert _ _ _ _ ?n0 = _ => set (nn := n0) in * end.
        assert (RN : rep h5 (Some ptr) ni nn (if dir then [ni; length h1; pc] else [ni; pc; length h1 + 1])).
        { unfold nn. destruct dir; cbn [rep].
          - exists (Some ptr), (ni - 2), pc, [length h1], [pc]. rewrite C5. split; [reflexivity|].
            replace (ni - 2) with (length h1) by (unfold ni; lia).
            split; [split; [|reflexivity]; exists (Some ni); rewrite K5 by (unfold ni; lia); exact A0|]. split; auto.
          - exists (Some ptr), pc, (ni - 1), [pc], [length h1 + 1]. rewrite C5. split; [reflexivity|].
            replace (ni - 1) with (length h1 + 1) by (unfold ni; lia). split; [auto|].
            split; [split; [|reflexivity]; exists (Some ni); rewrite K5 by (unfold ni; lia); exact A1|]. auto. }
        assert (IFP : forall x, In x (if dir then [ni; length h1; pc] else [ni; pc; length h1 + 1]) -> x = pc \/ length h <= x).
        { intros x. destruct dir; cbn [In]; unfold ni; intuition lia. }
        destruct (IH (depth + 1) ni h5 (Some ptr) nn _ n'c RN) as (h' & fpc & EL & RL & IL & EX & INI); auto.
        { destruct dir; repeat constructor; cbn [In]; unfold ni; intuition lia. }
        { unfold nn. destruct dir; exact I. }
        { intro X. destruct (IFP a X); [congruence|]. destruct dir; cbn [In] in X; unfold ni in X; lia. }
        { lia. }
        exists h', ni, fpc. split; [exact EL|].
        destruct EX as [X1 X2 X3 X4]. split.
        { rewrite X2; [unfold h5; rewrite upd_same by lia; reflexivity|lia| |auto].
          intro X. destruct (IFP ptr X); [congruence|lia]. }
        split; [exact RL|]. split; [lia|]. split.
        { intros x Lx Y1 Y2 Y3. assert (x <> pc) by (intros ->; apply Y2; rewrite EFC; left; auto).
          rewrite X2; [|lia| |auto].
          - rewrite K5 by (auto; unfold ni; lia). rewrite A2 by lia. apply K1; auto.
          - intro X. destruct (IFP x X); [congruence|lia]. }
        split; auto. intros x Hx. destruct (X3 x Hx) as [Y|[Y|Y]]; auto; [|right; right; lia].
        destruct (IFP x Y) as [->|]; auto. left. rewrite EFC. left. reflexivity.
    - (* interior *)
      destruct (IH (depth + 1) pc h1 (Some ptr) (Interior lvl0 lh0 rh0 l0 r0) fc n'c Rc1 Dc I AC) as (h' & fpc & EL & RL & IL & EX & INI); auto; [lia|].
      destruct EX as [X1 X2 X3 X4].
      exists h', pc, fpc. split; auto. split.
      { rewrite X2; auto; [|lia]. rewrite P1. unfold pc. destruct b; reflexivity. }
      split; auto. split; [lia|]. split.
      { intros x Lx Y1 Y2 Y3. rewrite X2; [apply K1; exact Y1|lia|exact Y2|exact Y3]. }
      split; auto. intros x Hx. destruct (X3 x Hx) as [|[|]]; auto. right. right. lia. }
  destruct b.
  - (* right *)
    set (h1 := upd h ptr (CInt q lvl lh None (Some pl) (Some pr))) in *.
    assert (L1 : length h1 = length h) by (apply upd_length; exact LP).
    assert (NPR : pr <> ptr) by (intros X; apply NP; right; rewrite <- X; exact (rep_root _ _ _ _ _ Rr)).
    assert (C1 : nth_error h1 pr = nth_error h pr) by (apply upd_other; auto).
    destruct (rep_cell _ _ _ _ _ Rr) as (c & Ec & EM). rewrite C1, Ec, EM.
    destruct (isEmpty r) eqn:ER.
    + injection E as <-.
      set (h2 := upd h1 ptr (CInt q lvl lh None (Some pl) (Some a))). assert (L2 : length h2 = length h1) by (apply upd_length; lia).
      set (h3 := upd h2 a (CLeaf (Some ptr) (depth + 1) d)).
      assert (AP : a <> ptr) by (intros X; apply NA; auto).
      destruct (BLD true lh None h3 h3 a (Leaf (depth + 1) d) [a]) as (fp' & Q1 & Q2 & Q3).
      * unfold h3. rewrite upd_other by (auto; lia). unfold h2. apply upd_same. lia.
      * unfold h3. rewrite upd_length; lia.
      * intros x X1 X2 X3 X4. unfold h3. rewrite upd_other by (auto; lia). unfold h2. rewrite upd_other by (auto; lia). unfold h1. apply upd_other; auto.
      * cbn [rep]. split; auto. apply upd_same. lia.
      * lia.
      * auto.
      * intros x [<-|[]]. auto.
      * repeat constructor. intros [].
      * exists h3, fp'. split; auto. split; auto. split; [exact I|]. auto.
    + destruct (insert d bits rem (depth + 1) r) as [r'|] eqn:EI; [|discriminate E]. cbn [bind] in E. injection E as <-.
      destruct (STEP pr r f2 lh None eq_refl eq_refl eq_refl Rr D2 ER r' EI) as (h' & pc' & fpc & S1 & S2 & S3 & S4 & S5 & S6 & S7).
      destruct (BLD true lh None h' h' pc' r' fpc) as (fp' & Q1 & Q2 & Q3); auto.
      exists h', fp'. split; [exact S1|]. split; auto. split; [exact I|]. auto.
  - (* left *)
    set (h1 := upd h ptr (CInt q lvl None rh (Some pl) (Some pr))) in *.
    assert (L1 : length h1 = length h) by (apply upd_length; exact LP).
    assert (NPL : pl <> ptr) by (intros X; apply NP; left; rewrite <- X; exact (rep_root _ _ _ _ _ Rl)).
    assert (C1 : nth_error h1 pl = nth_error h pl) by (apply upd_other; auto).
    destruct (rep_cell _ _ _ _ _ Rl) as (c & Ec & EM). rewrite C1, Ec, EM.
    destruct (isEmpty l) eqn:ER.
    + injection E as <-.
      set (h2 := upd h1 ptr (CInt q lvl None rh (Some a) (Some pr))). assert (L2 : length h2 = length h1) by (apply upd_length; lia).
      set (h3 := upd h2 a (CLeaf (Some ptr) (depth + 1) d)).
      assert (AP : a <> ptr) by (intros X; apply NA; auto).
      destruct (BLD false None rh h3 h3 a (Leaf (depth + 1) d) [a]) as (fp' & Q1 & Q2 & Q3).
      * unfold h3. rewrite upd_other by (auto; lia). unfold h2. apply upd_same. lia.
      * unfold h3. rewrite upd_length; lia.
      * intros x X1 X2 X3 X4. unfold h3. rewrite upd_other by (auto; lia). unfold h2. rewrite upd_other by (auto; lia). unfold h1. apply upd_other; auto.
      * cbn [rep]. split; auto. apply upd_same. lia.
      * lia.
      * auto.
      * intros x [<-|[]]. auto.
      * repeat constructor. intros [].
      * exists h3, fp'. split; auto. split; auto. split; [exact I|]. auto.
    + destruct (insert d bits rem (depth + 1) l) as [l'|] eqn:EI; [|discriminate E]. cbn [bind] in E. injection E as <-.
      destruct (STEP pl l f1 None rh eq_refl eq_refl eq_refl Rl D1 ER l' EI) as (h' & pc' & fpc & S1 & S2 & S3 & S4 & S5 & S6 & S7).
      destruct (BLD false None rh h' h' pc' l' fpc) as (fp' & Q1 & Q2 & Q3); auto.
      exists h', fp'. split; [exact S1|]. split; auto. split; [exact I|]. auto.
Qed.

(** ** Depth of recursion *)
Fixpoint height (n : node) : nat := match n with Interior _ _ _ l r => S (Nat.max (height l) (height r)) | _ => 1 end.
Lemma height_fp h : forall n par p fp, rep h par p n fp -> height n <= length fp.
Proof.
  induction n as [| |lvl lh rh l IHl r IHr]; intros par p fp R; cbn [rep height] in *.
  - destruct R as (_ & ->). auto.
  - destruct R as (_ & ->). auto.
  - destruct R as (q & pl & pr & f1 & f2 & _ & Rl & Rr & ->). cbn [length]. rewrite app_length.
    specialize (IHl _ _ _ Rl). specialize (IHr _ _ _ Rr). lia.
Qed.
Lemma height_heap h n par p fp : rep h par p n fp -> NoDup fp -> height n <= length h.
Proof.
  intros R D. pose proof (height_fp h n par p fp R). pose proof (rep_lt _ _ _ _ _ R) as L.
  assert (length fp <= length (seq 0 (length h))).
  { apply NoDup_incl_length; auto. intros x Hx. apply in_seq. specialize (L x Hx). lia. }
  rewrite seq_length in *. lia.
Qed.

Section Refine.
  Context {C : Crypto}.

  (** ** Hashing *)
  Lemma hash_refines nonce : forall n fuel par p fp h, rep h par p n fp -> NoDup fp -> height n <= fuel ->
    exists h', h_hash fuel nonce p h = Ok (fst (hash_node nonce n), h') /\ rep h' par p (snd (hash_node nonce n)) fp /\
      length h' = length h /\ (forall x, ~ In x fp -> nth_error h' x = nth_error h x).
  Proof.
    induction n as [lvl i|lvl d|lvl lh rh l IHl r IHr]; intros fuel par p fp h R D HF; (destruct fuel as [|fuel]; [cbn [height] in HF; lia|]).
    - cbn [rep] in R. destruct R as ((q & R) & ->). exists h. cbn [h_hash]. rewrite R. cbn [hash_node fst snd rep]. repeat (split; eauto).
    - cbn [rep] in R. destruct R as (R & ->). exists h. cbn [h_hash]. rewrite R. cbn [hash_node fst snd rep]. repeat (split; eauto).
    - cbn [rep] in R. destruct R as (q & pl & pr & f1 & f2 & R & Rl & Rr & ->). cbn [height] in HF.
      inversion D as [|? ? NP D']; subst. destruct (NoDup_app_split _ _ D') as (D1 & D2 & D12). rewrite in_app_iff in NP.
      pose proof (nth_lt _ _ _ R) as LP. cbn [h_hash]. rewrite R. cbn [hash_node].
      (* left *)
      assert (X : exists hl l' h1, match lh with Some x => Ok (x, h) | None => h_hash fuel nonce pl h end = Ok (hl, h1) /\
         match lh with Some h => (h, l) | None => hash_node nonce l end = (hl, l') /\ rep h1 (Some p) pl l' f1 /\
         length h1 = length h /\ (forall x, ~ In x f1 -> nth_error h1 x = nth_error h x)).
      { destruct lh as [hl|].
        - exists hl, l, h. repeat (split; auto).
        - destruct (IHl fuel (Some p) pl f1 h Rl D1 ltac:(lia)) as (h1 & E & R1 & L1 & K1).
          destruct (hash_node nonce l) as [hl l']. exists hl, l', h1. repeat (split; auto). }
      destruct X as (hl & l' & h1 & -> & -> & R1 & L1 & K1). cbn [bind]. cbv zeta.
      set (h2 := upd h1 p (CInt q lvl (Some hl) rh (Some pl) (Some pr))).
      assert (L2 : length h2 = length h) by (unfold h2; rewrite upd_length; lia).
      assert (K2 : forall x, x <> p -> nth_error h2 x = nth_error h1 x) by (intros x X; apply upd_other; auto; lia).
      assert (R2 : rep h2 (Some p) pr r f2).
      { eapply rep_frame; [|exact Rr]. intros x Hx. rewrite K2 by (intros ->; apply NP; auto). apply K1. intro Y. apply (D12 x); auto. }
      assert (X : exists hr r' h3, match rh with Some x => Ok (x, h2) | None => h_hash fuel nonce pr h2 end = Ok (hr, h3) /\
         match rh with Some h => (h, r) | None => hash_node nonce r end = (hr, r') /\ rep h3 (Some p) pr r' f2 /\
         length h3 = length h2 /\ (forall x, ~ In x f2 -> nth_error h3 x = nth_error h2 x)).
      { destruct rh as [hr|].
        - exists hr, r, h2. repeat (split; auto).
        - destruct (IHr fuel (Some p) pr f2 h2 R2 D2 ltac:(lia)) as (h3 & E & R3 & L3 & K3).
          destruct (hash_node nonce r) as [hr r']. exists hr, r', h3. repeat (split; auto). }
      destruct X as (hr & r' & h3 & -> & -> & R3 & L3 & K3). cbn [bind fst snd].
      set (h4 := upd h3 p (CInt q lvl (Some hl) (Some hr) (Some pl) (Some pr))).
      assert (K4 : forall x, x <> p -> nth_error h4 x = nth_error h3 x) by (intros x X; apply upd_other; auto; lia).
      exists h4. split; [reflexivity|]. split.
      { cbn [rep]. exists q, pl, pr, f1, f2. split; [apply upd_same; lia|]. split; [|split; [|reflexivity]].
        - eapply rep_frame; [|exact R1]. intros x Hx. rewrite K4 by (intros ->; apply NP; auto).
          rewrite K3 by (intro Y; apply (D12 x); auto). apply K2. intros ->; apply NP; auto.
        - eapply rep_frame; [|exact R3]. intros x Hx. apply K4. intros ->; apply NP; auto. }
      split; [unfold h4; rewrite upd_length; lia|].
      intros x NX. cbn [In] in NX. rewrite in_app_iff in NX. rewrite K4 by (intro; subst; apply NX; auto).
      rewrite K3 by (intro Y; apply NX; auto). rewrite K2 by (intro; subst; apply NX; auto). apply K1. intro Y; apply NX; auto.
  Qed.

  (** ** Cloning *)
  Lemma clone_refines : forall n fuel par0 par p fp h, rep h par0 p n fp -> NoDup fp -> height n <= fuel ->
    exists p' h' fp', h_clone fuel par p h = Ok (p', h') /\ rep h' par p' (clone_node n) fp' /\ NoDup fp' /\
      length h <= length h' /\ (forall x, x < length h -> nth_error h' x = nth_error h x) /\
      (forall x, In x fp' -> length h <= x).
  Proof.
    induction n as [lvl i|lvl d|lvl lh rh l IHl r IHr]; intros fuel par0 par p fp h R D HF; (destruct fuel as [|fuel]; [cbn [height] in HF; lia|]).
    - cbn [rep] in R. destruct R as ((q & R) & ->). cbn [h_clone]. rewrite R. exists (length h), (h ++ [CEmpty par lvl i]), [length h].
      split; auto. split; [cbn [clone_node rep]; split; auto; exists par; rewrite nth_error_app2, Nat.sub_diag by lia; reflexivity|].
      split; [repeat constructor; intros []|]. rewrite app_length. split; [lia|]. split; [intros x X; apply nth_error_app1; auto|].
      intros x [<-|[]]. auto.
    - cbn [rep] in R. destruct R as (R & ->). cbn [h_clone]. rewrite R. exists (length h), (h ++ [CLeaf par lvl d]), [length h].
      split; auto. split; [cbn [clone_node rep]; split; auto; rewrite nth_error_app2, Nat.sub_diag by lia; reflexivity|].
      split; [repeat constructor; intros []|]. rewrite app_length. split; [lia|]. split; [intros x X; apply nth_error_app1; auto|].
      intros x [<-|[]]. auto.
    - cbn [rep] in R. destruct R as (q & pl & pr & f1 & f2 & R & Rl & Rr & ->). cbn [height] in HF.
      inversion D as [|? ? NP D']; subst. destruct (NoDup_app_split _ _ D') as (D1 & D2 & D12).
      cbn [h_clone clone_node]. rewrite R. cbv zeta.
      set (cl := Some (match lh with Some x => x | None => [] end)). set (cr := Some (match rh with Some x => x | None => [] end)).
      set (P := length h). set (h0 := h ++ [CInt par lvl cl cr None None]).
      assert (L0 : length h0 = length h + 1) by (unfold h0; rewrite app_length; reflexivity).
      assert (K0 : forall x, x < length h -> nth_error h0 x = nth_error h x) by (intros x X; apply nth_error_app1; auto).
      assert (Rl0 : rep h0 (Some p) pl l f1) by (eapply rep_frame; [|exact Rl]; intros x Hx; apply K0; exact (rep_lt _ _ _ _ _ Rl _ Hx)).
      destruct (IHl fuel (Some p) (Some P) pl f1 h0 Rl0 D1 ltac:(lia)) as (pl' & h1 & g1 & -> & R1 & G1 & L1 & K1 & F1). cbn [bind].
      set (h2 := upd h1 P (CInt par lvl cl cr (Some pl') None)).
      assert (L2 : length h2 = length h1) by (apply upd_length; unfold P; lia).
      assert (K2 : forall x, x <> P -> nth_error h2 x = nth_error h1 x) by (intros x X; apply upd_other; auto; unfold P; lia).
      assert (Rr2 : rep h2 (Some p) pr r f2).
      { eapply rep_frame; [|exact Rr]. intros x Hx. pose proof (rep_lt _ _ _ _ _ Rr _ Hx). rewrite K2 by (unfold P; lia). rewrite K1 by lia. apply K0; auto. }
      destruct (IHr fuel (Some p) (Some P) pr f2 h2 Rr2 D2 ltac:(lia)) as (pr' & h3 & g2 & -> & R3 & G2 & L3 & K3 & F3). cbn [bind].
      set (h4 := upd h3 P (CInt par lvl cl cr (Some pl') (Some pr'))).
      assert (K4 : forall x, x <> P -> nth_error h4 x = nth_error h3 x) by (intros x X; apply upd_other; auto; unfold P; lia).
      exists P, h4, (P :: g1 ++ g2). split; [reflexivity|]. split.
      { cbn [rep]. exists par, pl', pr', g1, g2. split; [apply upd_same; unfold P; lia|]. split; [|split; [|reflexivity]].
        - eapply rep_frame; [|exact R1]. intros x Hx. pose proof (F1 x Hx). pose proof (rep_lt _ _ _ _ _ R1 _ Hx).
          rewrite K4 by (unfold P; lia). rewrite K3 by lia. apply K2. unfold P; lia.
        - eapply rep_frame; [|exact R3]. intros x Hx. pose proof (F3 x Hx). apply K4. unfold P; lia. }
      split.
      { constructor.
        - rewrite in_app_iff. intros [X|X]; [specialize (F1 _ X)|specialize (F3 _ X)]; unfold P in *; lia.
        - apply NoDup_app_join; auto. intros x X Y. pose proof (rep_lt _ _ _ _ _ R1 _ X). specialize (F3 _ Y). lia. }
      split; [unfold h4; rewrite upd_length by (unfold P; lia); lia|]. split.
      { intros x X. rewrite K4 by (unfold P; lia). rewrite K3 by lia. rewrite K2 by (unfold P; lia). rewrite K1 by lia. apply K0; auto. }
      intros x [<-|X]; [unfold P; lia|]. apply in_app_iff in X. destruct X as [X|X]; [specialize (F1 _ X)|specialize (F3 _ X)]; lia.
  Qed.

  (** ** Lookup *)
  Definition node_of (c : cell) : node :=
    match c with
    | CEmpty _ lvl i => Empty lvl i
    | CLeaf _ lvl d => Leaf lvl d
    | CInt _ lvl lh rh _ _ => Interior lvl lh rh (Empty 0 []) (Empty 0 [])
    end.
  Lemma get_refines h bits : forall n par p fp, rep h par p n fp -> forall depth pruned,
    match get_loop bits depth n pruned with
    | Ok (q, n') => exists c, h_get_loop h (skipn depth bits) p pruned = Ok (q, c) /\ node_of c = n'
    | Panic => h_get_loop h (skipn depth bits) p pruned = Panic
    end.
  Proof.
    induction n as [lvl i|lvl d|lvl lh rh l IHl r IHr]; intros par p fp R depth pruned; cbn [rep get_loop] in *.
    - destruct R as ((q & R) & _). exists (CEmpty q lvl i). destruct (skipn depth bits); cbn [h_get_loop]; rewrite R; auto.
    - destruct R as (R & _). exists (CLeaf par lvl d). destruct (skipn depth bits); cbn [h_get_loop]; rewrite R; auto.
    - destruct R as (q & pl & pr & f1 & f2 & R & Rl & Rr & _).
      assert (SK : skipn depth bits = match nth_error bits depth with Some b => b :: skipn (depth + 1) bits | None => [] end).
      { clear. revert depth. induction bits as [|b bits IH]; intros [|depth]; cbn [skipn nth_error]; auto.
        rewrite IH. reflexivity. }
      rewrite SK. unfold index. destruct (nth_error bits depth) as [b|]; cbn [bind h_get_loop]; rewrite R; auto.
      destruct b; [eapply IHr|eapply IHl]; eauto.
  Qed.

  (** ** Programs with several trees *)
  Definition tree_rep (h : heap) (t : htree) (m : MerkleTree) (fp : list nat) : Prop :=
    ht_nonce t = t_nonce m /\ ht_hash t = t_hash m /\ rep h None (ht_root t) (t_root m) fp /\ NoDup fp /\ is_int (t_root m).
  (** All trees are represented, with disjoint footprints. *)
  Definition forest_rep (s : heap * list htree) (ms : list MerkleTree) : Prop :=
    length (snd s) = length ms /\
    exists fps, length fps = length ms /\
      (forall k t m fp, nth_error (snd s) k = Some t -> nth_error ms k = Some m -> nth_error fps k = Some fp -> tree_rep (fst s) t m fp) /\
      (forall j k fj fk x, nth_error fps j = Some fj -> nth_error fps k = Some fk -> In x fj -> In x fk -> j = k).

  Lemma get_tree h t m fp i : tree_rep h t m fp -> h_get h t i = Get m i.
  Proof.
    intros (N & _ & R & _ & _). unfold h_get, Get. pose proof (get_refines h (ToBits i) _ _ _ _ R 0 []) as G. cbn [skipn] in G.
    destruct (get_loop (ToBits i) 0 (t_root m) []) as [[q n']|]; [|rewrite G; reflexivity].
    destruct G as (c & -> & E). cbn [bind]. fold (node_of c). rewrite E, N. reflexivity.
  Qed.

  Lemma nth_set {A} (l : list A) k x j : k < length l ->
    nth_error (set_nth l k x) j = if Nat.eqb j k then Some x else nth_error l j.
  Proof.
    intro L. unfold set_nth. destruct (Nat.eqb_spec j k) as [->|N].
    - rewrite nth_error_app2; rewrite firstn_length, Nat.min_l by lia; [|lia]. rewrite Nat.sub_diag. reflexivity.
    - destruct (Nat.lt_ge_cases j k).
      + rewrite nth_error_app1 by (rewrite firstn_length; lia).
        rewrite <- (firstn_skipn k l) at 2. rewrite nth_error_app1 by (rewrite firstn_length; lia). reflexivity.
      + rewrite nth_error_app2 by (rewrite firstn_length; lia). rewrite firstn_length, Nat.min_l by lia.
        destruct (j - k) as [|i] eqn:E; [lia|]. cbn [nth_error].
        rewrite <- (firstn_skipn (S k) l) at 2. rewrite nth_error_app2 by (rewrite firstn_length; lia).
        rewrite firstn_length, Nat.min_l by lia. f_equal. lia.
  Qed.
  Lemma set_nth_length {A} (l : list A) k x : k < length l -> length (set_nth l k x) = length l.
  Proof. intro L. unfold set_nth. rewrite app_length, firstn_length, Nat.min_l by lia. cbn [length]. rewrite skipn_length. lia. Qed.
  Lemma nth_snoc {A} (l : list A) x j : nth_error (l ++ [x]) j = if Nat.eqb j (length l) then Some x else nth_error l j.
  Proof.
    destruct (Nat.eqb_spec j (length l)) as [->|N]; [rewrite nth_error_app2, Nat.sub_diag by lia; reflexivity|].
    destruct (Nat.lt_ge_cases j (length l)); [apply nth_error_app1; auto|].
    rewrite nth_error_app2 by lia. destruct (j - length l) as [|i] eqn:E; [lia|]. cbn [nth_error].
    destruct i; symmetry; apply nth_error_None; lia.
  Qed.

  (** Adding a tree on new addresses. *)
  Lemma forest_add h ts ms h' t m fp : forest_rep (h, ts) ms -> tree_rep h' t m fp ->
    (forall x, x < length h -> nth_error h' x = nth_error h x) -> (forall x, In x fp -> length h <= x) ->
    forest_rep (h', ts ++ [t]) (ms ++ [m]).
  Proof.
    intros (L & fps & LF & T & DJ) TR K F. cbn [fst snd] in *. split; [cbn [snd]; rewrite !app_length; cbn [length]; lia|].
    exists (fps ++ [fp]). split; [rewrite !app_length; cbn [length]; lia|]. split; cbn [fst snd].
    - intros k t0 m0 fp0 Ht Hm Hf. rewrite nth_snoc in Ht. rewrite nth_snoc in Hm. rewrite nth_snoc in Hf. rewrite L in Ht. rewrite LF in Hf.
      destruct (Nat.eqb_spec k (length ms)) as [->|N]; [congruence|].
      destruct (T k t0 m0 fp0 Ht Hm Hf) as (X1 & X2 & X3 & X4 & X5). repeat (split; auto).
      eapply rep_frame; [|exact X3]. intros x Hx. apply K. exact (rep_lt _ _ _ _ _ X3 _ Hx).
    - assert (NEW : forall k fk x, nth_error fps k = Some fk -> In x fk -> x < length h).
      { intros k fk x Hk Hx. pose proof (nth_lt _ _ _ Hk) as LK.
        destruct (nth_error ts k) as [tk|] eqn:E1; [|apply nth_error_None in E1; lia].
        destruct (nth_error ms k) as [mk|] eqn:E2; [|apply nth_error_None in E2; lia].
        destruct (T k tk mk fk E1 E2 Hk) as (_ & _ & X3 & _). exact (rep_lt _ _ _ _ _ X3 _ Hx). }
      intros j k fj fk x Hj Hk Xj Xk. rewrite nth_snoc in Hj. rewrite nth_snoc in Hk.
      destruct (Nat.eqb_spec j (length fps)) as [->|Nj], (Nat.eqb_spec k (length fps)) as [->|Nk]; auto.
      + injection Hj as <-. specialize (F x Xj). specialize (NEW k fk x Hk Xk). lia.
      + injection Hk as <-. specialize (F x Xk). specialize (NEW j fj x Hj Xj). lia.
      + eapply DJ; eauto.
  Qed.
  (** Changing one tree within its footprint and new addresses. *)
  Lemma forest_change h ts ms k t m h' t' m' fp fp' : forest_rep (h, ts) ms ->
    nth_error ts k = Some t -> nth_error ms k = Some m -> tree_rep h' t' m' fp' ->
    tree_rep h t m fp ->
    (forall x, x < length h -> ~ In x fp -> nth_error h' x = nth_error h x) ->
    (forall x, In x fp' -> In x fp \/ length h <= x) ->
    forest_rep (h', set_nth ts k t') (set_nth ms k m').
  Proof.
    intros (L & fps & LF & T & DJ) Et Em TR UF K F. cbn [fst snd] in *.
    pose proof (nth_lt _ _ _ Et) as L1. pose proof (nth_lt _ _ _ Em) as L2.
    destruct (nth_error fps k) as [fpk|] eqn:Ef; [|apply nth_error_None in Ef; lia].
    assert (fpk = fp).
    { destruct (T k t m fpk Et Em Ef) as (_ & _ & X & _). destruct UF as (_ & _ & Y & _). exact (rep_fun _ _ _ _ _ _ X Y). }
    subst fpk.
    split; [cbn [snd]; rewrite !set_nth_length; auto|].
    exists (set_nth fps k fp'). split; [rewrite !set_nth_length; auto; lia|]. split; cbn [fst snd].
    - intros j t0 m0 fp0 Ht Hm Hf. rewrite nth_set in Ht by lia. rewrite nth_set in Hm by lia. rewrite nth_set in Hf by lia.
      destruct (Nat.eqb_spec j k) as [->|N]; [congruence|].
      destruct (T j t0 m0 fp0 Ht Hm Hf) as (X1 & X2 & X3 & X4 & X5). repeat (split; auto).
      eapply rep_frame; [|exact X3]. intros x Hx. apply K; [exact (rep_lt _ _ _ _ _ X3 _ Hx)|].
      intro Y. apply N. eapply DJ; eauto.
    - assert (OLD : forall j fj x, nth_error fps j = Some fj -> In x fj -> x < length h).
      { intros j fj x Hj Hx. pose proof (nth_lt _ _ _ Hj) as LK.
        destruct (nth_error ts j) as [tk|] eqn:E1; [|apply nth_error_None in E1; lia].
        destruct (nth_error ms j) as [mk|] eqn:E2; [|apply nth_error_None in E2; lia].
        destruct (T j tk mk fj E1 E2 Hj) as (_ & _ & X3 & _). exact (rep_lt _ _ _ _ _ X3 _ Hx). }
      intros i j fi fj x Hi Hj Xi Xj. rewrite nth_set in Hi by lia. rewrite nth_set in Hj by lia.
      destruct (Nat.eqb_spec i k) as [->|Ni], (Nat.eqb_spec j k) as [->|Nj]; auto.
      + injection Hi as <-. destruct (F x Xi) as [Y|Y]; [eapply DJ; eauto|]. specialize (OLD j fj x Hj Xj). lia.
      + injection Hj as <-. destruct (F x Xj) as [Y|Y]; [eapply DJ; eauto|]. specialize (OLD i fi x Hi Xi). lia.
      + eapply DJ; eauto.
  Qed.

  Lemma new_rep h r h' t m : h_new h r = Some (h', t) -> NewMerkleTree r = Some m ->
    exists fp, tree_rep h' t m fp /\ (forall x, x < length h -> nth_error h' x = nth_error h x) /\ (forall x, In x fp -> length h <= x).
  Proof.
    unfold h_new, NewMerkleTree. destruct (MakeRand r) as [nonce|]; [|discriminate 1]. intros E1 E2. injection E1 as <- <-. injection E2 as <-.
    exists [length h + 2; length h; length h + 1]. unfold alloc_interior. split; [|split].
    - unfold tree_rep. cbn [ht_nonce ht_hash ht_root t_nonce t_hash t_root newInteriorNode]. split; auto. split; auto. split; [|split; [|exact I]].
      + cbn [rep]. exists None, (length h), (length h + 1), [length h], [length h + 1].
        assert (AT : forall k c, nth_error [CEmpty (Some (length h + 2)) (0 + 1) (ToBytes ([] ++ [false])); CEmpty (Some (length h + 2)) (0 + 1) (ToBytes ([] ++ [true]));
             CInt None 0 None None (Some (length h)) (Some (length h + 1))] k = Some c ->
           nth_error (h ++ [CEmpty (Some (length h + 2)) (0 + 1) (ToBytes ([] ++ [false])); CEmpty (Some (length h + 2)) (0 + 1) (ToBytes ([] ++ [true]));
             CInt None 0 None None (Some (length h)) (Some (length h + 1))]) (length h + k) = Some c).
        { intros k c X. rewrite nth_error_app2 by lia. replace (length h + k - length h) with k by lia. exact X. }
        split; [apply (AT 2); reflexivity|]. split; [split; [eexists; pose proof (AT 0 _ eq_refl) as A0; rewrite Nat.add_0_r in A0; exact A0|reflexivity]|].
        split; [split; [eexists; apply (AT 1); reflexivity|reflexivity]|]. reflexivity.
      + repeat constructor; cbn [In]; lia.
    - intros x X. apply nth_error_app1. exact X.
    - intros x. cbn [In]. lia.
  Qed.

  Lemma step_refines op : forall s ms ms', forest_rep s ms -> vstep ms op = Ok ms' ->
    exists s', hstep s op = Ok s' /\ forest_rep s' ms'.
  Proof.
    intros [h ts] ms ms' FR E. destruct op as [r|k r idx key value|k|k]; cbn [hstep vstep] in *.
    - pose proof (new_rep h r) as NR. unfold NewMerkleTree, h_new in *. destruct (MakeRand r) as [nonce|].
      + injection E as <-. destruct (NR _ _ _ eq_refl eq_refl) as (fp & T & K & F). eexists. split; [reflexivity|].
        eapply forest_add; eauto.
      + injection E as <-. eauto.
    - pose proof FR as (L & fps & LF & T & DJ). cbn [fst snd] in *. unfold index in *.
      destruct (nth_error ms k) as [m|] eqn:Em; [|discriminate E]. cbn [bind] in E. pose proof (nth_lt _ _ _ Em) as LK.
      destruct (nth_error ts k) as [t|] eqn:Et; [|apply nth_error_None in Et; lia]. cbn [bind].
      destruct (nth_error fps k) as [fp|] eqn:Ef; [|apply nth_error_None in Ef; lia].
      pose proof (T k t m fp Et Em Ef) as TR. pose proof TR as (N & H & R & D & IT).
      unfold Set_, h_set in *. destruct (NewCommit r [key; value]) as [c|]; [|injection E as <-; cbn [bind]; eauto].
      unfold insertNode in E. set (d := mkLeaf key value idx c) in *.
      destruct (insert d (ToBits idx) (ToBits idx) 0 (t_root m)) as [n'|] eqn:EI; [|discriminate E]. cbn [bind] in E. injection E as <-.
      set (h0 := h ++ [CLeaf None 0 d]).
      assert (K0 : forall x, x < length h -> nth_error h0 x = nth_error h x) by (intros x X; apply nth_error_app1; auto).
      assert (L0 : length h0 = length h + 1) by (unfold h0; rewrite app_length; reflexivity).
      assert (R0 : rep h0 None (ht_root t) (t_root m) fp) by (eapply rep_frame; [|exact R]; intros x Hx; apply K0; exact (rep_lt _ _ _ _ _ R _ Hx)).
      destruct (loop_refines (length h) d (ToBits idx) (ToBits idx) 0 (ht_root t) h0 None (t_root m) fp n' R0 D IT) as (h' & fp' & EL & RL & IL & EX & _); auto.
      { intro X. pose proof (rep_lt _ _ _ _ _ R _ X). lia. }
      { lia. }
      rewrite EL. cbn [bind]. eexists. split; [reflexivity|].
      assert (ST : set_nth ts k t = ts).
      { clear - Et. revert k Et. induction ts as [|y ts IH]; intros [|k] Et; cbn in *; try discriminate Et; [injection Et as ->; reflexivity|].
        unfold set_nth in *. cbn [firstn skipn app]. f_equal. apply IH. exact Et. }
      rewrite <- ST. destruct EX as [X1 X2 X3 X4].
      eapply (forest_change h ts ms k t m h' t _ fp fp'); eauto.
      + unfold tree_rep. cbn [t_nonce t_hash t_root]. repeat (split; auto).
      + intros x Lx NX. rewrite X2; [apply K0; exact Lx|lia|exact NX|lia].
      + intros x Hx. destruct (X3 x Hx) as [Y|[Y|Y]]; auto; right; lia.
    - pose proof FR as (L & fps & LF & T & DJ). cbn [fst snd] in *. unfold index in *.
      destruct (nth_error ms k) as [m|] eqn:Em; [|discriminate E]. cbn [bind] in E. pose proof (nth_lt _ _ _ Em) as LK.
      destruct (nth_error ts k) as [t|] eqn:Et; [|apply nth_error_None in Et; lia]. cbn [bind].
      destruct (nth_error fps k) as [fp|] eqn:Ef; [|apply nth_error_None in Ef; lia].
      pose proof (T k t m fp Et Em Ef) as TR. pose proof TR as (N & H & R & D & IT). injection E as <-.
      destruct (hash_refines (ht_nonce t) (t_root m) (length h) None (ht_root t) fp h R D (height_heap _ _ _ _ _ R D)) as (h' & EH & R' & L' & K').
      unfold h_rehash. rewrite EH. cbn [bind]. eexists. split; [reflexivity|].
      eapply (forest_change h ts ms k t m h' _ _ fp fp); eauto.
      unfold tree_rep, recomputeHash. rewrite <- N. destruct (hash_node (ht_nonce t) (t_root m)) as [x n'] eqn:EHN.
      cbn [t_nonce t_hash t_root ht_nonce ht_hash ht_root fst snd] in *. repeat (split; auto).
      destruct (t_root m); try contradiction. cbn [hash_node] in EHN.
      match type of EHN with (let '(_, _) := ?e in _) = _ => destruct e end. match type of EHN with (let '(_, _) := ?e in _) = _ => destruct e end.
      injection EHN as _ <-. exact I.
    - pose proof FR as (L & fps & LF & T & DJ). cbn [fst snd] in *. unfold index in *.
      destruct (nth_error ms k) as [m|] eqn:Em; [|discriminate E]. cbn [bind] in E. pose proof (nth_lt _ _ _ Em) as LK.
      destruct (nth_error ts k) as [t|] eqn:Et; [|apply nth_error_None in Et; lia]. cbn [bind].
      destruct (nth_error fps k) as [fp|] eqn:Ef; [|apply nth_error_None in Ef; lia].
      pose proof (T k t m fp Et Em Ef) as TR. pose proof TR as (N & H & R & D & IT). injection E as <-.
      destruct (clone_refines (t_root m) (length h) None None (ht_root t) fp h R D (height_heap _ _ _ _ _ R D)) as (p' & h' & fp' & EC & R' & D' & L' & K' & F').
      unfold h_Clone. rewrite EC. cbn [bind]. eexists. split; [reflexivity|].
      eapply forest_add; eauto. unfold tree_rep, Clone. cbn [t_nonce t_hash t_root ht_nonce ht_hash ht_root]. repeat (split; auto).
      destruct (t_root m); try contradiction. exact I.
  Qed.

  Lemma run_refines : forall ops s ms ms', forest_rep s ms -> vrun ms ops = Ok ms' ->
    exists s', hrun s ops = Ok s' /\ forest_rep s' ms'.
  Proof.
    induction ops as [|op ops IH]; intros s ms ms' FR E; cbn [hrun vrun] in *; [injection E as <-; eauto|].
    destruct (vstep ms op) as [ms1|] eqn:E1; [|discriminate E]. cbn [bind] in E.
    destruct (step_refines op s ms ms1 FR E1) as (s1 & -> & F1). cbn [bind]. eapply IH; eauto.
  Qed.
  Lemma forest_empty : forest_rep ([], []) [].
  Proof. split; auto. exists []. split; auto. split; [intros [|k] t m fp X; discriminate X|intros [|j] k fj fk x X; discriminate X]. Qed.
  Lemma forest_obs s ms k m : forest_rep s ms -> nth_error ms k = Some m ->
    exists t, nth_error (snd s) k = Some t /\ ht_hash t = t_hash m /\ forall i, h_get (fst s) t i = Get m i.
  Proof.
    intros (L & fps & LF & T & _) Em. pose proof (nth_lt _ _ _ Em).
    destruct (nth_error (snd s) k) as [t|] eqn:Et; [|apply nth_error_None in Et; lia].
    destruct (nth_error fps k) as [fp|] eqn:Ef; [|apply nth_error_None in Ef; lia].
    pose proof (T k t m fp Et Em Ef) as TR. exists t. split; auto. split; [apply TR|]. intro i. eapply get_tree; eauto.
  Qed.
End Refine.
