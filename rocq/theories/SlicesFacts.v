(** Proofs about Slices.v. *)
From Coq Require Import List NArith Lia Bool Arith.
From Verif Require Import Base Utils Crypto Tree STR PAD PADFacts Protocol Directory Slices SlicesSpec.
Import ListNotations.

(** ** Memory *)

Lemma ext_refl m : ext m m. Proof. exists []. rewrite app_nil_r. reflexivity. Qed.
Lemma ext_trans m m' m'' : ext m m' -> ext m' m'' -> ext m m''.
Proof. intros [t ->] [t' ->]. exists (t ++ t'). rewrite app_assoc. reflexivity. Qed.
Lemma ext_app m t : ext m (m ++ t). Proof. exists t. reflexivity. Qed.
Lemma ext_len m m' : ext m m' -> length m <= length m'.
Proof. intros [t ->]. rewrite app_length. lia. Qed.

Lemma ext_nth m m' a : ext m m' -> a < length m -> nth a m' [] = nth a m [].
Proof. intros [t ->] H. apply app_nth1. exact H. Qed.
Lemma vs_ext m m' s : ext m m' -> vs m s -> vs m' s.
Proof. intros E. destruct s as [s|]; cbn [vs]; [|auto]. intros (H & K & J). rewrite (ext_nth m m') by assumption. apply ext_len in E. repeat split; lia. Qed.
Lemma rd_ext m m' s : ext m m' -> vs m s -> rd m' s = rd m s.
Proof. intros E. destruct s as [s|]; cbn [vs rd]; [|auto]. intros (H & _). rewrite (ext_nth m m') by assumption. reflexivity. Qed.
Lemma v_hash_ext m m' s : ext m m' -> vs m s -> v_hash m' s = v_hash m s.
Proof. intros E V. destruct s as [s|]; cbn [v_hash option_map]; [|reflexivity]. f_equal. apply rd_ext; assumption. Qed.
Lemma rd_len m s : vs m (Some s) -> length (rd m (Some s)) = sl s.
Proof. cbn [vs rd]. intros (H & K & J). rewrite firstn_length, skipn_length. lia. Qed.

Lemma set_nth_same {A} i (x : A) l d : i < length l -> nth i (Base.set_nth i x l) d = x.
Proof. revert i; induction l as [|y l IH]; cbn [length]; intros [|i] H; cbn [Base.set_nth nth]; try lia; auto. apply IH. lia. Qed.
Lemma set_nth_other {A} i j (x : A) l d : i <> j -> nth j (Base.set_nth i x l) d = nth j l d.
Proof. revert i j; induction l as [|y l IH]; intros [|i] [|j] H; cbn [Base.set_nth nth]; try lia; auto. Qed.

(** Writing into another array changes nothing. *)
Lemma write_len a off xs m : length (write a off xs m) = length m.
Proof. unfold write. apply set_nth_length. Qed.
Lemma rd_write_other a off xs m s : ~ In a (arrays [s]) -> rd (write a off xs m) s = rd m s.
Proof.
  destruct s as [s|]; [|reflexivity]. cbn [arrays flat_map app In]. intro H. cbn [rd]. unfold write.
  rewrite set_nth_other by (intro; apply H; left; congruence). reflexivity.
Qed.

Lemma make_eq b m s m' : make b m = (s, m') -> ext m m' /\ vs m' s /\ rd m' s = b /\ arrays [s] = [length m].
Proof.
  unfold make. intro E. injection E as <- <-. split; [apply ext_app|]. cbn [vs rd sa so sl sc arrays flat_map app].
  rewrite app_nth2, Nat.sub_diag by lia. cbn [nth]. rewrite app_length. cbn [length skipn].
  split; [lia|]. split; [apply firstn_all|reflexivity].
Qed.

Section Facts.
  Variable growth : nat -> nat -> nat.

  (** [append] to a slice whose array is younger than [m0] leaves [m0] alone. *)
  Lemma append_eq m0 m s xs s' m' : ext m0 m -> vs m s -> (forall a, In a (arrays [s]) -> length m0 <= a) -> append growth s xs m = (s', m') ->
    ext m0 m' /\ vs m' s' /\ rd m' s' = rd m s ++ xs /\ (forall a, In a (arrays [s']) -> length m0 <= a) /\ (s <> None -> s' <> None).
  Proof.
    intros E V F. unfold append. destruct s as [s|]; cbn [arrays flat_map app In] in F.
    - specialize (F (sa s) (or_introl eq_refl)). pose proof V as (V1 & V2 & V3). destruct (Nat.leb_spec (sl s + length xs) (sc s)) as [HL|HL]; intro X; injection X as <- <-.
      + split.
        { destruct E as [t ->]. unfold write. replace (sa s) with (length m0 + (sa s - length m0)) by lia. rewrite set_nth_app_r. apply ext_app. }
        split.
        { cbn [vs sa so sl sc]. rewrite write_len. split; [exact V1|]. unfold write. rewrite set_nth_same by exact V1.
          rewrite !app_length, firstn_length, skipn_length. split; lia. }
        split; [|split; [cbn; intros a [<-|[]]; exact F|discriminate]].
        cbn [rd sa so sl sc]. unfold write. rewrite set_nth_same by exact V1. set (arr := nth (sa s) m []) in *. clearbody arr.
        assert (LA : so s + sl s <= length arr) by lia.
        rewrite skipn_app. rewrite (skipn_firstn_comm (so s)). rewrite firstn_length. replace (so s - Nat.min (so s + sl s) (length arr)) with 0 by lia. cbn [skipn].
        replace (so s + sl s - so s) with (sl s) by lia. rewrite firstn_app. rewrite (firstn_all2 (n := sl s + length xs) (firstn (sl s) (skipn (so s) arr))) by (rewrite firstn_length; lia).
        f_equal. rewrite firstn_length, skipn_length. replace (sl s + length xs - Nat.min (sl s) (length arr - so s)) with (length xs) by lia.
        rewrite firstn_app, firstn_all, Nat.sub_diag. cbn [firstn]. apply app_nil_r.
      + split; [eapply ext_trans; [exact E|apply ext_app]|]. cbn [vs rd sa so sl sc arrays flat_map app].
        rewrite app_nth2, Nat.sub_diag by lia. cbn [nth skipn]. pose proof (rd_len m s V) as RL. cbn [rd] in RL.
        split; [rewrite !app_length, repeat_length, RL; cbn [length]; lia|].
        split; [|split; [intros a [<-|[]]; apply ext_len in E; exact E|discriminate]].
        rewrite app_assoc, firstn_app. rewrite app_length, RL, Nat.sub_diag. cbn [firstn]. rewrite app_nil_r.
        apply firstn_all2. rewrite app_length, RL. lia.
    - destruct (Nat.leb_spec (0 + length xs) 0) as [HL|HL]; intro X; injection X as <- <-.
      + destruct xs; [|cbn [length] in HL; lia]. cbn. repeat split; auto.
      + split; [eapply ext_trans; [exact E|apply ext_app]|]. cbn [vs rd sa so sl sc arrays flat_map app].
        rewrite app_nth2, Nat.sub_diag by lia. cbn [nth skipn app].
        split; [rewrite !app_length, repeat_length; cbn [length]; lia|].
        split; [|split; [intros a [<-|[]]; apply ext_len in E; exact E|congruence]].
        rewrite firstn_app. cbn [Nat.add]. rewrite Nat.sub_diag. cbn [firstn]. rewrite app_nil_r. apply firstn_all.
  Qed.

  Lemma copy_of_eq m s s' m' : vs m s -> copy_of growth s m = (s', m') ->
    ext m m' /\ vs m' s' /\ rd m' s' = rd m s /\ (forall a, In a (arrays [s']) -> length m <= a) /\ s' <> None.
  Proof.
    intros V. unfold copy_of. destruct (make [] m) as [e m1] eqn:E1. destruct (make_eq _ _ _ _ E1) as (X1 & V1 & R1 & A1).
    intro H. rewrite (rd_ext m m1) in H by assumption.
    assert (F1 : forall a, In a (arrays [e]) -> length m <= a) by (rewrite A1; intros a [<-|[]]; lia).
    destruct (append_eq m m1 e (rd m s) s' m' X1 V1 F1 H) as (X & V' & R & A & NN).
    split; [exact X|]. split; [exact V'|]. split; [rewrite R, R1; reflexivity|]. split; [exact A|]. apply NN.
    unfold make in E1. injection E1 as <- _. discriminate.
  Qed.

  (** ** Slices that are valid and lie in given arrays or in arrays younger than [n0] *)
  Variables (L : list nat) (n0 : nat).
  Definition G (m : mem) (s : gs) : Prop := vs m s /\ forall a, In a (arrays [s]) -> In a L \/ n0 <= a.
  Lemma G_vs m s : G m s -> vs m s. Proof. intros [V _]. exact V. Qed.
  Lemma G_ext m m' s : ext m m' -> G m s -> G m' s.
  Proof. intros E [V F]. split; [eapply vs_ext; eassumption|exact F]. Qed.
  Lemma G_nil m : G m None. Proof. split; [exact I|]. intros a []. Qed.
  Lemma Gs_ext m m' l : ext m m' -> Forall (G m) l -> Forall (G m') l.
  Proof. intros E. apply Forall_impl. intros s. apply G_ext. exact E. Qed.
  Lemma make_G b m s m' : n0 <= length m -> make b m = (s, m') -> ext m m' /\ G m' s /\ rd m' s = b.
  Proof.
    intros N E. destruct (make_eq _ _ _ _ E) as (X & V & R & A). split; [exact X|]. split; [|exact R]. split; [exact V|].
    intros a Ia. rewrite A in Ia. destruct Ia as [<-|[]]. right. exact N.
  Qed.
  Lemma copy_of_G m s s' m' : n0 <= length m -> vs m s -> copy_of growth s m = (s', m') -> ext m m' /\ G m' s' /\ rd m' s' = rd m s /\ s' <> None.
  Proof.
    intros N V E. destruct (copy_of_eq _ _ _ _ V E) as (X & V' & R & A & NN). split; [exact X|]. split; [|split; assumption]. split; [exact V'|].
    intros a Ia. right. apply A in Ia. lia.
  Qed.

  (** ** Bits *)
  Lemma bools_benc m s l : rd m s = map benc l -> bools m s = l.
  Proof. unfold bools. intros ->. rewrite map_map. rewrite <- (map_id l) at 2. apply map_ext. intros []; reflexivity. Qed.

  (** ** Nodes *)
  Lemma v_leaf_ext m m' d : ext m m' -> Forall (vs m) (ss_leaf d) -> v_leaf m' d = v_leaf m d.
  Proof.
    intros E F. unfold ss_leaf in F. apply Forall_cons_iff in F as [F1 F]. apply Forall_cons_iff in F as [F2 F].
    apply Forall_cons_iff in F as [F3 F]. apply Forall_cons_iff in F as [F4 _]. unfold v_leaf. rewrite !(rd_ext m m') by assumption. reflexivity.
  Qed.
  Lemma v_node_ext m m' n : ext m m' -> Forall (vs m) (ss_node n) -> v_node m' n = v_node m n.
  Proof.
    intros E. induction n as [lvl i|lvl d|lvl lh rh l IHl r IHr]; cbn [ss_node v_node]; intro F.
    - rewrite (rd_ext m m') by (try assumption; apply Forall_inv in F; exact F). reflexivity.
    - rewrite (v_leaf_ext m m') by assumption. reflexivity.
    - apply Forall_cons_iff in F as [F1 F]. apply Forall_cons_iff in F as [F2 F]. apply Forall_app in F as [F3 F4].
      rewrite !(v_hash_ext m m') by assumption. rewrite IHl, IHr by assumption. reflexivity.
  Qed.
  Lemma Gs_vs m l : Forall (G m) l -> Forall (vs m) l.
  Proof. apply Forall_impl. apply G_vs. Qed.
  Lemma newInterior_eq level prefix bits m n m' : n0 <= length m -> vs m prefix -> rd m prefix = map benc bits ->
    r_newInterior growth level prefix m = (n, m') ->
    ext m m' /\ exists il ir, n = RInt level None None (REmpty (level + 1) il) (REmpty (level + 1) ir) /\ G m' il /\ G m' ir /\
      v_node m' n = newInteriorNode level bits.
  Proof.
    intros N V R. unfold r_newInterior.
    destruct (append growth None (rd m prefix) m) as [p1 m1] eqn:E1.
    destruct (append_eq m m None _ _ _ (ext_refl m) I ltac:(intros a []) E1) as (X1 & V1 & R1 & A1 & _).
    destruct (append growth p1 [benc false] m1) as [pl m2] eqn:E2.
    destruct (append_eq m m1 p1 _ _ _ X1 V1 A1 E2) as (X2 & V2 & R2 & A2 & _).
    destruct (append growth None (rd m2 prefix) m2) as [p3 m3] eqn:E3.
    destruct (append_eq m2 m2 None _ _ _ (ext_refl m2) I ltac:(intros a []) E3) as (X3 & V3 & R3 & A3 & _).
    destruct (append growth p3 [benc true] m3) as [pr m4] eqn:E4.
    destruct (append_eq m2 m3 p3 _ _ _ X3 V3 A3 E4) as (X4 & V4 & R4 & A4 & _).
    assert (X24 : ext m m4) by (eapply ext_trans; eassumption).
    destruct (make (ToBytes (bools m4 pl)) m4) as [il m5] eqn:E5.
    assert (N4 : n0 <= length m4) by (apply ext_len in X24; lia).
    destruct (make_G _ _ _ _ N4 E5) as (X5 & G5 & R5).
    assert (N5 : n0 <= length m5) by (apply ext_len in X5; lia).
    destruct (make (ToBytes (bools m5 pr)) m5) as [ir m6] eqn:E6.
    destruct (make_G _ _ _ _ N5 E6) as (X6 & G6 & R6).
    intro H. injection H as <- <-. split; [eapply ext_trans; [exact X24|eapply ext_trans; eassumption]|].
    exists il, ir. split; [reflexivity|]. split; [eapply G_ext; [exact X6|exact G5]|]. split; [exact G6|].
    cbn [v_node v_hash option_map]. rewrite (rd_ext m5 m6 il X6 (G_vs _ _ G5)), R5, R6. unfold newInteriorNode.
    assert (BL : bools m4 pl = bits ++ [false]).
    { apply bools_benc. rewrite (rd_ext m2 m4 pl X4 V2), R2, R1, R, map_app. reflexivity. }
    assert (BR : bools m5 pr = bits ++ [true]).
    { apply bools_benc. rewrite (rd_ext m4 m5 pr X5 V4), R4, R3, (rd_ext m m2 prefix X2 V), R, map_app. reflexivity. }
    rewrite BL, BR. reflexivity.
  Qed.

  Lemma index_skipn {A} (l : list A) i : index l i = match skipn i l with [] => Panic | b :: _ => Ok b end.
  Proof.
    unfold index. revert i. induction l as [|x l IH]; intros [|i]; cbn [nth_error skipn]; try reflexivity. apply IH.
  Qed.
  Lemma skipn_S {A} (l : list A) i b t : skipn i l = b :: t -> skipn (i + 1) l = t.
  Proof. revert i. induction l as [|x l IH]; intros [|i] H; cbn [skipn Nat.add] in *; try discriminate H; [injection H as _ ->; reflexivity|]. apply IH. exact H. Qed.
  Lemma skipn_nil_iff {A} (l : list A) i : skipn i l = [] -> length l <= i.
  Proof. intro H. assert (length (skipn i l) = 0) by (rewrite H; reflexivity). rewrite skipn_length in H0. lia. Qed.
  Lemma is_empty_v m n : isEmpty (v_node m n) = r_isEmpty n.
  Proof. destruct n; reflexivity. Qed.

  (** What an operation on a node achieves. *)
  Definition done (m : mem) (o : result (rnode * mem)) (v : result node) : Prop :=
    match v with
    | Panic => o = Panic
    | Ok v => exists n m', o = Ok (n, m') /\ ext m m' /\ Forall (G m') (ss_node n) /\ nn n /\ v_node m' n = v
    end.

  (** The [down] part of the loops. *)
  Definition r_down (fuel : nat) d bits depth lvl lh rh l r m : result (rnode * mem) :=
    do b <- index (bools m bits) depth;
    if b : bool then
      if r_isEmpty r then Ok (RInt lvl lh None l (RLeaf (depth + 1) d), m)
      else do (r', m') <- r_insert growth fuel d bits (depth + 1) r m; Ok (RInt lvl lh None l r', m')
    else
      if r_isEmpty l then Ok (RInt lvl None rh (RLeaf (depth + 1) d) r, m)
      else do (l', m') <- r_insert growth fuel d bits (depth + 1) l m; Ok (RInt lvl None rh l' r, m').
  Definition v_down d bits rem depth lvl lh rh l r : result node :=
    match rem with
    | [] => Panic
    | b :: rem' =>
        if b : bool then
          if isEmpty r then Ok (Interior lvl lh None l (Leaf (depth + 1) d))
          else do r' <- insert d bits rem' (depth + 1) r; Ok (Interior lvl lh None l r')
        else
          if isEmpty l then Ok (Interior lvl None rh (Leaf (depth + 1) d) r)
          else do l' <- insert d bits rem' (depth + 1) l; Ok (Interior lvl None rh l' r)
    end.
  Lemma r_insert_eq fuel d bits depth n m : r_insert growth (S fuel) d bits depth n m =
    match n with
    | RLeaf lvl old =>
        if beq (rd m (rl_index old)) (rd m (rl_index d)) then Ok (RLeaf lvl d, m)
        else
          let '(ni, m) := r_newInterior growth depth (sub bits depth) m in
          do direction <- GetNthBit (rd m (rl_index old)) depth;
          match ni with
          | RInt lvl' lh rh l r =>
              if direction : bool then r_down fuel d bits depth lvl' lh rh l (RLeaf (depth + 1) old) m
              else r_down fuel d bits depth lvl' lh rh (RLeaf (depth + 1) old) r m
          | _ => Panic
          end
    | RInt lvl lh rh l r => r_down fuel d bits depth lvl lh rh l r m
    | REmpty _ _ => Panic
    end.
  Proof. reflexivity. Qed.
  Lemma insert_eq d bits rem depth n : insert d bits rem depth n =
    match n with
    | Leaf lvl old =>
        if beq (l_index old) (l_index d) then Ok (Leaf lvl d)
        else
          do direction <- GetNthBit (l_index old) depth;
          match newInteriorNode depth (firstn depth bits) with
          | Interior lvl' lh rh l r =>
              if direction : bool then v_down d bits rem depth lvl' lh rh l (Leaf (depth + 1) old)
              else v_down d bits rem depth lvl' lh rh (Leaf (depth + 1) old) r
          | _ => Panic
          end
    | Interior lvl lh rh l r => v_down d bits rem depth lvl lh rh l r
    | Empty _ _ => Panic
    end.
  Proof. destruct rem; reflexivity. Qed.

  Section Insert.
    Variables (d : rleaf) (bits : gs) (vbits : list bool) (vd : leafdata).
    Definition ins_ok (m : mem) : Prop :=
      n0 <= length m /\ vs m bits /\ rd m bits = map benc vbits /\ Forall (G m) (ss_leaf d) /\ rl_value d <> None /\ v_leaf m d = vd.
    Lemma ins_ok_ext m m' : ext m m' -> ins_ok m -> ins_ok m'.
    Proof.
      intros E (N & V & R & F & NV & W). repeat split; [apply ext_len in E; lia|eapply vs_ext; eassumption| |eapply Gs_ext; eassumption|exact NV|].
      - rewrite (rd_ext m m') by assumption. exact R.
      - rewrite (v_leaf_ext m m'); [exact W|exact E|apply Gs_vs; exact F].
    Qed.
    Lemma down_done fuel depth :
      (forall n m, ins_ok m -> Forall (G m) (ss_node n) -> nn n -> S (length vbits) <= fuel + S depth ->
        done m (r_insert growth fuel d bits (S depth) n m) (insert vd vbits (skipn (S depth) vbits) (S depth) (v_node m n))) ->
      forall lvl lh rh l r m, ins_ok m -> Forall (G m) (ss_node (RInt lvl lh rh l r)) -> nn (RInt lvl lh rh l r) ->
        S (length vbits) <= S fuel + depth ->
        done m (r_down fuel d bits depth lvl lh rh l r m)
          (v_down vd vbits (skipn depth vbits) depth lvl (v_hash m lh) (v_hash m rh) (v_node m l) (v_node m r)).
    Proof.
      intros IH lvl lh rh l r m OK F [NL NR] LEN. pose proof OK as (N & V & R & FD & NV & W).
      cbn [ss_node] in F. apply Forall_cons_iff in F as [F1 F]. apply Forall_cons_iff in F as [F2 F]. apply Forall_app in F as [F3 F4].
      unfold r_down, v_down. rewrite (bools_benc _ _ _ R), index_skipn. destruct (skipn depth vbits) as [|b rem] eqn:SK; [reflexivity|].
      cbn [bind]. assert (SK' : skipn (S depth) vbits = rem) by (replace (S depth) with (depth + 1) by lia; eapply skipn_S; exact SK).
      replace (depth + 1) with (S depth) by lia. destruct b; rewrite is_empty_v.
      - destruct (r_isEmpty r).
        + cbn [done]. eexists _, m. split; [reflexivity|]. split; [apply ext_refl|]. cbn [ss_node nn v_node]. rewrite W.
          split; [constructor; [exact F1|constructor; [apply G_nil|apply Forall_app; split; assumption]]|]. split; [split; assumption|]. reflexivity.
        + specialize (IH r m OK F4 NR ltac:(lia)). rewrite SK' in IH. destruct (insert vd vbits rem (S depth) (v_node m r)) as [r'|]; cbn [done bind] in *.
          * destruct IH as (rr & m' & E & X & FR & NR' & VR). rewrite E. cbn [bind]. eexists _, m'. split; [reflexivity|]. split; [exact X|].
            cbn [ss_node nn v_node]. split; [constructor; [eapply G_ext; eassumption|constructor; [apply G_nil|apply Forall_app; split; [eapply Gs_ext; eassumption|exact FR]]]|].
            split; [split; assumption|]. rewrite VR. rewrite (v_hash_ext m m' lh X (G_vs _ _ F1)), (v_node_ext m m' l X (Gs_vs _ _ F3)). reflexivity.
          * rewrite IH. reflexivity.
      - destruct (r_isEmpty l).
        + cbn [done]. eexists _, m. split; [reflexivity|]. split; [apply ext_refl|]. cbn [ss_node nn v_node]. rewrite W.
          split; [constructor; [apply G_nil|constructor; [exact F2|apply Forall_app; split; assumption]]|]. split; [split; assumption|]. reflexivity.
        + specialize (IH l m OK F3 NL ltac:(lia)). rewrite SK' in IH. destruct (insert vd vbits rem (S depth) (v_node m l)) as [l'|]; cbn [done bind] in *.
          * destruct IH as (rr & m' & E & X & FR & NR' & VR). rewrite E. cbn [bind]. eexists _, m'. split; [reflexivity|]. split; [exact X|].
            cbn [ss_node nn v_node]. split; [constructor; [apply G_nil|constructor; [eapply G_ext; eassumption|apply Forall_app; split; [exact FR|eapply Gs_ext; eassumption]]]|].
            split; [split; assumption|]. rewrite VR. rewrite (v_hash_ext m m' rh X (G_vs _ _ F2)), (v_node_ext m m' r X (Gs_vs _ _ F4)). reflexivity.
          * rewrite IH. reflexivity.
    Qed.
    Lemma done_ext m m1 o v : ext m m1 -> done m1 o v -> done m o v.
    Proof. intros E. destruct v as [v|]; cbn [done]; [|auto]. intros (n & m' & H & X & Q). exists n, m'. split; [exact H|]. split; [eapply ext_trans; eassumption|exact Q]. Qed.
    Lemma sub_bits depth m : vs m bits -> rd m bits = map benc vbits -> depth <= length vbits ->
      vs m (sub bits depth) /\ rd m (sub bits depth) = map benc (firstn depth vbits).
    Proof.
      intros V R LE. destruct bits as [s|]; cbn [sub option_map].
      - pose proof (rd_len m s V) as RL. rewrite R, map_length in RL. destruct V as (V1 & V2 & V3). cbn [vs rd sa so sl sc] in *.
        split; [repeat split; lia|]. rewrite <- firstn_map, <- R. rewrite firstn_firstn. f_equal. lia.
      - split; [exact I|]. cbn [rd] in *. symmetry in R. apply map_eq_nil in R. rewrite R, firstn_nil. reflexivity.
    Qed.
    Lemma insert_done fuel : forall depth n m, ins_ok m -> Forall (G m) (ss_node n) -> nn n -> depth <= length vbits ->
      S (length vbits) <= fuel + depth ->
      done m (r_insert growth fuel d bits depth n m) (insert vd vbits (skipn depth vbits) depth (v_node m n)).
    Proof.
      induction fuel as [|fuel IH]; intros depth n m OK F NN LE LEN; [lia|]. rewrite r_insert_eq, insert_eq.
      pose proof OK as (N & V & R & FD & NV & W).
      assert (DD : forall lvl lh rh l r m, ins_ok m -> Forall (G m) (ss_node (RInt lvl lh rh l r)) -> nn (RInt lvl lh rh l r) ->
        done m (r_down fuel d bits depth lvl lh rh l r m)
          (v_down vd vbits (skipn depth vbits) depth lvl (v_hash m lh) (v_hash m rh) (v_node m l) (v_node m r))).
      { intros lvl lh rh l r m1 OK1 F1 NN1. destruct (Nat.eq_dec depth (length vbits)) as [->|NE].
        - unfold r_down, v_down. rewrite skipn_all. destruct OK1 as (_ & _ & R1 & _). rewrite (bools_benc _ _ _ R1), index_skipn, skipn_all. reflexivity.
        - apply down_done; try assumption. intros n2 m2 O2 F2 N2 L2. apply IH; try assumption; lia. }
      destruct n as [lvl i|lvl old|lvl lh rh l r]; cbn [v_node].
      - reflexivity.
      - change (l_index (v_leaf m old)) with (rd m (rl_index old)). rewrite <- W at 1. change (l_index (v_leaf m d)) with (rd m (rl_index d)).
        destruct (beq (rd m (rl_index old)) (rd m (rl_index d))).
        { cbn [done]. exists (RLeaf lvl d), m. split; [reflexivity|]. split; [apply ext_refl|]. cbn [ss_node nn v_node]. rewrite W. auto. }
        destruct (sub_bits depth m V R LE) as [VS RS].
        destruct (r_newInterior growth depth (sub bits depth) m) as [ni m1] eqn:EN.
        destruct (newInterior_eq depth _ _ _ _ _ N VS RS EN) as (X & il & ir & -> & Gl & Gr & VN).
        cbn [ss_node] in F. assert (FO : Forall (G m1) (ss_leaf old)) by (eapply Gs_ext; eassumption).
        assert (RO : rd m1 (rl_index old) = rd m (rl_index old)).
        { apply rd_ext; [exact X|]. unfold ss_leaf in F. apply Forall_inv_tail, Forall_inv, G_vs in F. exact F. }
        rewrite RO. destruct (GetNthBit (rd m (rl_index old)) depth) as [dir|]; cbn [bind done]; [|reflexivity].
        rewrite <- VN. cbn [v_node]. assert (OK1 : ins_ok m1) by (eapply ins_ok_ext; eassumption).
        assert (VO : v_leaf m1 old = v_leaf m old) by (apply v_leaf_ext; [exact X|apply Gs_vs; exact F]).
        eapply done_ext; [exact X|]. destruct dir.
        + specialize (DD depth None None (REmpty (depth + 1) il) (RLeaf (depth + 1) old) m1 OK1). cbn [v_node v_hash option_map] in DD. rewrite VO in DD. apply DD; [|cbn [nn]; auto].
          cbn [ss_node]. constructor; [apply G_nil|]. constructor; [apply G_nil|]. apply Forall_app. split; [constructor; [exact Gl|constructor]|exact FO].
        + specialize (DD depth None None (RLeaf (depth + 1) old) (REmpty (depth + 1) ir) m1 OK1). cbn [v_node v_hash option_map] in DD. rewrite VO in DD. apply DD; [|cbn [nn]; auto].
          cbn [ss_node]. constructor; [apply G_nil|]. constructor; [apply G_nil|]. apply Forall_app. split; [exact FO|constructor; [exact Gr|constructor]].
      - apply DD; assumption.
    Qed.
  End Insert.

  (** ** Reading a tree *)
  Lemma get_loop_done bits vbits n m : rd m bits = map benc vbits -> Forall (G m) (ss_node n) -> nn n -> forall depth pruned,
    match get_loop vbits depth (v_node m n) pruned with
    | Panic => r_get_loop bits depth n pruned m = Panic
    | Ok (p, v) => exists n', r_get_loop bits depth n pruned m = Ok (p, n') /\ v_node m n' = v /\ Forall (G m) (ss_node n') /\ nn n'
    end.
  Proof.
    intros R. induction n as [lvl i|lvl d|lvl lh rh l IHl r IHr]; intros F NN depth pruned; cbn [v_node get_loop r_get_loop].
    - exists (REmpty lvl i). auto.
    - exists (RLeaf lvl d). auto.
    - cbn [ss_node] in F. apply Forall_inv_tail in F. apply Forall_inv_tail in F. apply Forall_app in F as [F3 F4]. destruct NN as [NL NR].
      rewrite (bools_benc _ _ _ R). destruct (index vbits depth) as [b|]; cbn [bind]; [|reflexivity]. destruct b; [apply IHr|apply IHl]; assumption.
  Qed.
  Definition done_ap (m : mem) (o : result (rAP * mem)) (v : result AuthPath) : Prop :=
    match v with
    | Panic => o = Panic
    | Ok v => exists a m', o = Ok (a, m') /\ ext m m' /\ Forall (G m') (ss_ap a) /\ v_ap m' a = v
    end.
  Definition ok_tree (m : mem) (t : rtree) : Prop := Forall (G m) (ss_tree t) /\ nn (rt_root t).
  Lemma ok_tree_ext m m' t : ext m m' -> ok_tree m t -> ok_tree m' t.
  Proof. intros E [F N]. split; [eapply Gs_ext; eassumption|exact N]. Qed.
  Lemma v_tree_ext m m' t : ext m m' -> Forall (vs m) (ss_tree t) -> v_tree m' t = v_tree m t.
  Proof.
    intros E F. unfold ss_tree in F. apply Forall_cons_iff in F as [F1 F]. apply Forall_cons_iff in F as [F2 F]. unfold v_tree.
    rewrite (rd_ext m m' _ E F1), (rd_ext m m' _ E F2), (v_node_ext m m' _ E F). reflexivity.
  Qed.
  Lemma Get_done t lookup m : n0 <= length m -> ok_tree m t -> G m lookup -> done_ap m (r_Get t lookup m) (Get (v_tree m t) (rd m lookup)).
  Proof.
    intros N [F NN] GL. unfold r_Get, Get. destruct (make (map benc (ToBits (rd m lookup))) m) as [bits m1] eqn:E1.
    destruct (make_G _ _ _ _ N E1) as (X & _ & R).
    assert (F' : Forall (G m1) (ss_tree t)) by (eapply Gs_ext; eassumption). unfold ss_tree in F, F'.
    apply Forall_cons_iff in F as [F1 F]. apply Forall_cons_iff in F as [F2 F]. apply Forall_cons_iff in F' as [F1' F']. apply Forall_cons_iff in F' as [F2' F'].
    pose proof (get_loop_done bits _ (rt_root t) m1 R F' NN 0 []) as D.
    cbn [t_root v_tree t_nonce]. rewrite <- (v_node_ext m m1 _ X (Gs_vs _ _ F)).
    destruct (get_loop (ToBits (rd m lookup)) 0 (v_node m1 (rt_root t)) []) as [[pr vn]|]; cbn [bind done_ap] in *; [|rewrite D; reflexivity].
    destruct D as (n' & -> & Vn & Fn & Nn). cbn [bind]. rewrite <- (rd_ext m m1 _ X (G_vs _ _ GL)), <- (rd_ext m m1 _ X (G_vs _ _ F1)).
    assert (GL1 : G m1 lookup) by (eapply G_ext; eassumption). subst vn.
    destruct n' as [lvl i|lvl d|lvl lh rh l r]; cbn [proof_leaf r_proof_leaf v_node bind done_ap].
    - eexists _, m1. split; [reflexivity|]. split; [exact X|]. split; [|reflexivity]. unfold ss_ap, ss_pn; cbn [ra_nonce ra_lookup ra_vrf ra_leaf rn_index rn_value rn_com].
      pose proof (Forall_inv Fn) as GI. repeat (constructor; try assumption; try apply G_nil).
    - cbn [v_leaf l_index l_value l_com c_value]. cbn [ss_node ss_leaf] in Fn. apply Forall_cons_iff in Fn as [Q1 Fn]. apply Forall_cons_iff in Fn as [Q2 Fn].
      apply Forall_cons_iff in Fn as [Q3 Fn]. apply Forall_cons_iff in Fn as [Q4 _]. cbn [nn] in Nn.
      destruct (beq (rd m1 (rl_index d)) (rd m1 lookup)); cbn [bind]; eexists _, m1; (split; [reflexivity|]); (split; [exact X|]);
        (split; [unfold ss_ap, ss_pn; cbn [ra_nonce ra_lookup ra_vrf ra_leaf rn_index rn_value rn_com fst snd]; repeat (constructor; try assumption; try apply G_nil)|]); [|reflexivity].
      unfold v_ap. cbn [ra_nonce ra_pruned ra_lookup ra_vrf ra_leaf option_map v_pn rn_level rn_index rn_value rn_empty rn_com fst snd].
      destruct (rl_value d) as [v|] eqn:Ev; [|congruence]. unfold v_pn. cbn [rn_level rn_index rn_value rn_empty rn_com fst snd v_hash option_map]. reflexivity.
    - reflexivity.
  Qed.

  (** ** Hashing and cloning *)
  Section Crypto.
  Context {C : Crypto}.
  Lemma make_some b m s m' : make b m = (s, m') -> s <> None.
  Proof. unfold make. intro E. injection E as <- _. discriminate. Qed.
  Lemma v_hash_some m s : s <> None -> v_hash m s = Some (rd m s).
  Proof. destruct s; [reflexivity|congruence]. Qed.
  Lemma hash_done nonce n : forall m h n' m', n0 <= length m -> G m nonce -> Forall (G m) (ss_node n) -> nn n -> r_hash nonce n m = (h, n', m') ->
    ext m m' /\ G m' h /\ h <> None /\ Forall (G m') (ss_node n') /\ nn n' /\ hash_node (rd m nonce) (v_node m n) = (rd m' h, v_node m' n').
  Proof.
    induction n as [lvl i|lvl d|lvl lh rh l IHl r IHr]; intros m h n' m' N GN F NN.
    - cbn [r_hash]. destruct (make (shake (empty_pre (rd m nonce) (rd m i) lvl)) m) as [h1 m1] eqn:E1. intro H. injection H as <- <- <-.
      destruct (make_G _ _ _ _ N E1) as (X & Gh & R). split; [exact X|]. split; [exact Gh|]. split; [eapply make_some; exact E1|].
      split; [eapply Gs_ext; eassumption|]. split; [exact I|]. rewrite R. rewrite (v_node_ext m m1 _ X (Gs_vs _ _ F)). reflexivity.
    - cbn [r_hash]. destruct (make (shake (leaf_pre (rd m nonce) (rd m (rl_index d)) lvl (rd m (rl_com d)))) m) as [h1 m1] eqn:E1. intro H. injection H as <- <- <-.
      destruct (make_G _ _ _ _ N E1) as (X & Gh & R). split; [exact X|]. split; [exact Gh|]. split; [eapply make_some; exact E1|].
      split; [eapply Gs_ext; eassumption|]. split; [exact NN|]. rewrite R. rewrite (v_node_ext m m1 _ X (Gs_vs _ _ F)). reflexivity.
    - cbn [r_hash hash_node v_node]. cbn [ss_node] in F. apply Forall_cons_iff in F as [F1 F]. apply Forall_cons_iff in F as [F2 F]. apply Forall_app in F as [F3 F4].
      destruct NN as [NL NR].
      match goal with |- match ?x with _ => _ end = _ -> _ => destruct x as [[hl l'] m1] eqn:EL end.
      assert (PL : ext m m1 /\ G m1 hl /\ hl <> None /\ Forall (G m1) (ss_node l') /\ nn l' /\
        match v_hash m lh with Some h => (h, v_node m l) | None => hash_node (rd m nonce) (v_node m l) end = (rd m1 hl, v_node m1 l')).
      { destruct lh as [lh|].
        - injection EL as <- <- <-. split; [apply ext_refl|]. split; [exact F1|]. split; [discriminate|]. split; [exact F3|]. split; [exact NL|]. reflexivity.
        - apply IHl; assumption. }
      destruct PL as (X1 & G1 & S1 & FL & NL' & VL). rewrite VL.
      match goal with |- match ?x with _ => _ end = _ -> _ => destruct x as [[hr r'] m2] eqn:ER end.
      assert (N1 : n0 <= length m1) by (apply ext_len in X1; lia).
      assert (PR : ext m1 m2 /\ G m2 hr /\ hr <> None /\ Forall (G m2) (ss_node r') /\ nn r' /\
        match v_hash m rh with Some h => (h, v_node m r) | None => hash_node (rd m nonce) (v_node m r) end = (rd m2 hr, v_node m2 r')).
      { rewrite <- (v_hash_ext m m1 rh X1 (G_vs _ _ F2)), <- (rd_ext m m1 nonce X1 (G_vs _ _ GN)), <- (v_node_ext m m1 r X1 (Gs_vs _ _ F4)).
        destruct rh as [rh|].
        - injection ER as <- <- <-. split; [apply ext_refl|]. split; [eapply G_ext; eassumption|]. split; [discriminate|]. split; [eapply Gs_ext; eassumption|]. split; [exact NR|]. reflexivity.
        - apply IHr; try assumption; [eapply G_ext; eassumption|eapply Gs_ext; eassumption]. }
      destruct PR as (X2 & G2 & S2 & FR & NR' & VR). rewrite VR.
      destruct (make (Digest [rd m2 hl; rd m2 hr]) m2) as [h3 m3] eqn:E3. intro H. injection H as <- <- <-.
      assert (N2 : n0 <= length m2) by (apply ext_len in X2; lia).
      destruct (make_G _ _ _ _ N2 E3) as (X3 & G3 & R3).
      assert (X23 : ext m1 m3) by (eapply ext_trans; eassumption).
      split; [eapply ext_trans; eassumption|]. split; [exact G3|]. split; [eapply make_some; exact E3|].
      split; [cbn [ss_node]; constructor; [eapply G_ext; [exact X23|exact G1]|constructor; [eapply G_ext; [exact X3|exact G2]|apply Forall_app; split; [eapply Gs_ext; [exact X23|exact FL]|eapply Gs_ext; [exact X3|exact FR]]]]|].
      split; [split; assumption|]. cbn [v_node]. rewrite !v_hash_some by assumption. rewrite R3.
      rewrite (rd_ext m1 m2 hl X2 (G_vs _ _ G1)), (rd_ext m1 m3 hl X23 (G_vs _ _ G1)), (rd_ext m2 m3 hr X3 (G_vs _ _ G2)),
        (v_node_ext m1 m3 l' X23 (Gs_vs _ _ FL)), (v_node_ext m2 m3 r' X3 (Gs_vs _ _ FR)). reflexivity.
  Qed.
  Lemma rehash_done t m t' m' : n0 <= length m -> ok_tree m t -> r_rehash t m = (t', m') ->
    ext m m' /\ ok_tree m' t' /\ rt_hash t' <> None /\ v_tree m' t' = recomputeHash (v_tree m t).
  Proof.
    intros N [F NN]. unfold ss_tree in F. apply Forall_cons_iff in F as [F1 F]. apply Forall_cons_iff in F as [F2 F].
    unfold r_rehash, recomputeHash. destruct (r_hash (rt_nonce t) (rt_root t) m) as [[h n'] m1] eqn:E. intro H. injection H as <- <-.
    destruct (hash_done _ _ _ _ _ _ N F1 F NN E) as (X & Gh & Sh & Fn & Nn & V). cbn [v_tree t_nonce t_root]. rewrite V.
    split; [exact X|]. split; [split; [constructor; [eapply G_ext; eassumption|constructor; [exact Gh|exact Fn]]|exact Nn]|]. split; [exact Sh|].
    unfold v_tree. cbn [rt_nonce rt_root rt_hash]. rewrite (rd_ext m m1 _ X (G_vs _ _ F1)). reflexivity.
  Qed.
  Lemma clone_done n : forall m n' m', n0 <= length m -> Forall (G m) (ss_node n) -> nn n -> r_clone growth n m = (n', m') ->
    ext m m' /\ Forall (G m') (ss_node n') /\ nn n' /\ v_node m' n' = clone_node (v_node m n).
  Proof.
    induction n as [lvl i|lvl d|lvl lh rh l IHl r IHr]; intros m n' m' N F NN; cbn [r_clone v_node clone_node ss_node] in *.
    - destruct (copy_of growth i m) as [i' m1] eqn:E. intro H. injection H as <- <-. destruct (copy_of_G _ _ _ _ N (G_vs _ _ (Forall_inv F)) E) as (X & Gi & R & _).
      split; [exact X|]. cbn [ss_node nn v_node]. split; [constructor; [exact Gi|constructor]|]. split; [exact I|]. rewrite R. reflexivity.
    - unfold ss_leaf in F. apply Forall_cons_iff in F as [Q1 F]. apply Forall_cons_iff in F as [Q2 F]. apply Forall_cons_iff in F as [Q3 F]. apply Forall_cons_iff in F as [Q4 _].
      destruct (copy_of growth (rl_index d) m) as [i' m1] eqn:E. intro H. injection H as <- <-. destruct (copy_of_G _ _ _ _ N (G_vs _ _ Q2) E) as (X & Gi & R & _).
      split; [exact X|]. cbn [ss_node ss_leaf nn v_node rl_key rl_value rl_index rl_salt rl_com]. split; [repeat (constructor; try assumption; try (eapply G_ext; eassumption))|].
      split; [exact NN|]. unfold v_leaf. cbn [rl_key rl_value rl_index rl_salt rl_com]. rewrite R, !(rd_ext m m1 _ X) by (apply G_vs; assumption). reflexivity.
    - apply Forall_cons_iff in F as [F1 F]. apply Forall_cons_iff in F as [F2 F]. apply Forall_app in F as [F3 F4]. destruct NN as [NL NR].
      destruct (copy_of growth lh m) as [lh' m1] eqn:E1. destruct (copy_of_G _ _ _ _ N (G_vs _ _ F1) E1) as (X1 & G1 & R1 & S1).
      assert (N1 : n0 <= length m1) by (apply ext_len in X1; lia).
      assert (F2' : G m1 rh) by (eapply G_ext; eassumption).
      destruct (copy_of growth rh m1) as [rh' m2] eqn:E2. destruct (copy_of_G _ _ _ _ N1 (G_vs _ _ F2') E2) as (X2 & G2 & R2 & S2).
      assert (N2 : n0 <= length m2) by (apply ext_len in X2; lia). assert (X12 : ext m m2) by (eapply ext_trans; eassumption).
      destruct (r_clone growth l m2) as [l' m3] eqn:E3. destruct (IHl _ _ _ N2 (Gs_ext _ _ _ X12 F3) NL E3) as (X3 & FL & NL' & VL).
      assert (N3 : n0 <= length m3) by (apply ext_len in X3; lia). assert (X13 : ext m m3) by (eapply ext_trans; eassumption).
      destruct (r_clone growth r m3) as [r' m4] eqn:E4. destruct (IHr _ _ _ N3 (Gs_ext _ _ _ X13 F4) NR E4) as (X4 & FR & NR' & VR).
      intro H. injection H as <- <-. split; [eapply ext_trans; eassumption|]. assert (X24 : ext m2 m4) by (eapply ext_trans; eassumption).
      assert (X14 : ext m1 m4) by (eapply ext_trans; eassumption).
      cbn [ss_node nn v_node]. split; [constructor; [eapply G_ext; [exact X14|exact G1]|constructor; [eapply G_ext; [exact X24|exact G2]|apply Forall_app; split; [eapply Gs_ext; [exact X4|exact FL]|exact FR]]]|].
      split; [split; assumption|]. rewrite !v_hash_some by assumption.
      rewrite (rd_ext m1 m4 lh' X14 (G_vs _ _ G1)), (rd_ext m2 m4 rh' X24 (G_vs _ _ G2)), R1, R2, (rd_ext m m1 rh X1 (G_vs _ _ F2)).
      rewrite (v_node_ext m3 m4 l' X4 (Gs_vs _ _ FL)), VL, VR, (v_node_ext m m2 l X12 (Gs_vs _ _ F3)), (v_node_ext m m3 r X13 (Gs_vs _ _ F4)).
      assert (CP : forall s, match v_hash m s with Some h => h | None => [] end = rd m s) by (intros [s|]; reflexivity). rewrite !CP. reflexivity.
  Qed.
  Lemma Clone_done t m t' m' : n0 <= length m -> ok_tree m t -> r_Clone growth t m = (t', m') ->
    ext m m' /\ ok_tree m' t' /\ v_tree m' t' = Clone (v_tree m t).
  Proof.
    intros N [F NN]. unfold ss_tree in F. apply Forall_cons_iff in F as [F1 F]. apply Forall_cons_iff in F as [F2 F].
    unfold r_Clone, Clone. destruct (r_clone growth (rt_root t) m) as [n' m1] eqn:E. destruct (clone_done _ _ _ _ N F NN E) as (X & Fn & Nn & V).
    assert (N1 : n0 <= length m1) by (apply ext_len in X; lia). assert (F2' : G m1 (rt_hash t)) by (eapply G_ext; eassumption).
    destruct (copy_of growth (rt_hash t) m1) as [h' m2] eqn:E2. destruct (copy_of_G _ _ _ _ N1 (G_vs _ _ F2') E2) as (X2 & G2 & R2 & _).
    intro H. injection H as <- <-. assert (X12 : ext m m2) by (eapply ext_trans; eassumption). split; [exact X12|].
    split; [split; [constructor; [eapply G_ext; [exact X12|exact F1]|constructor; [exact G2|cbn [rt_root]; eapply Gs_ext; [exact X2|exact Fn]]]|exact Nn]|].
    unfold v_tree. cbn [rt_nonce rt_root rt_hash t_nonce t_root t_hash]. rewrite (rd_ext m m2 _ X12 (G_vs _ _ F1)), R2, (rd_ext m m1 _ X (G_vs _ _ F2)), (v_node_ext m1 m2 n' X2 (Gs_vs _ _ Fn)), V. reflexivity.
  Qed.

  (** ** Creating and changing a tree *)
  Lemma New_done r m : n0 <= length m ->
    match NewMerkleTree r with
    | None => r_New growth r m = None
    | Some v => exists t m', r_New growth r m = Some (t, m') /\ ext m m' /\ ok_tree m' t /\ v_tree m' t = v
    end.
  Proof.
    intros N. destruct r as [r|]; cbn [NewMerkleTree MakeRand option_map]; [|reflexivity]. unfold r_New.
    destruct (make [] m) as [e m1] eqn:E1. destruct (make_G _ _ _ _ N E1) as (X1 & G1 & R1). assert (N1 : n0 <= length m1) by (apply ext_len in X1; lia).
    destruct (r_newInterior growth 0 e m1) as [n m2] eqn:E2. destruct (newInterior_eq 0 e [] _ _ _ N1 (G_vs _ _ G1) R1 E2) as (X2 & il & ir & -> & Gl & Gr & VN).
    assert (N2 : n0 <= length m2) by (apply ext_len in X2; lia).
    destruct (make r m2) as [rb m3] eqn:E3. destruct (make_G _ _ _ _ N2 E3) as (X3 & G3 & R3). assert (N3 : n0 <= length m3) by (apply ext_len in X3; lia).
    rewrite R3. destruct (make (Digest [r]) m3) as [nc m4] eqn:E4. destruct (make_G _ _ _ _ N3 E4) as (X4 & G4 & R4).
    assert (X24 : ext m2 m4) by (eapply ext_trans; eassumption). assert (FN : Forall (G m2) (ss_node (RInt 0 None None (REmpty (0 + 1) il) (REmpty (0 + 1) ir)))).
    { cbn [ss_node app]. repeat (constructor; try assumption; try apply G_nil). }
    eexists _, m4. split; [reflexivity|]. split; [eapply ext_trans; [exact X1|]; eapply ext_trans; eassumption|].
    split; [split; [constructor; [exact G4|constructor; [apply G_nil|eapply Gs_ext; [exact X24|exact FN]]]|cbn; auto]|].
    unfold v_tree. cbn [rt_nonce rt_root rt_hash]. rewrite R4, (v_node_ext m2 m4 _ X24 (Gs_vs _ _ FN)), VN. reflexivity.
  Qed.
  Lemma Set_done t r idx key value m : n0 <= length m -> ok_tree m t -> G m idx -> vs m value ->
    match Set_ (v_tree m t) r (rd m idx) key (rd m value) with
    | Panic => r_Set growth t r idx key value m = Panic
    | Ok o => exists o' m', r_Set growth t r idx key value m = Ok (o', m') /\ ext m m' /\
        match o' with None => o = None | Some t' => ok_tree m' t' /\ o = Some (v_tree m' t') end
    end.
  Proof.
    intros N [F NN] GI VV. unfold Set_, NewCommit, MakeRand. destruct r as [r|]; cbn [option_map]; [|exists None, m; split; [reflexivity|split; [apply ext_refl|reflexivity]]].
    unfold r_Set. destruct (make key m) as [kb m1] eqn:E1. destruct (make_G _ _ _ _ N E1) as (X1 & G1 & R1). assert (N1 : n0 <= length m1) by (apply ext_len in X1; lia).
    destruct (make r m1) as [rb m2] eqn:E2. destruct (make_G _ _ _ _ N1 E2) as (X2 & G2 & R2). assert (N2 : n0 <= length m2) by (apply ext_len in X2; lia).
    rewrite R2. destruct (make (Digest [r]) m2) as [salt m3] eqn:E3. destruct (make_G _ _ _ _ N2 E3) as (X3 & G3 & R3). assert (N3 : n0 <= length m3) by (apply ext_len in X3; lia).
    assert (X13 : ext m1 m3) by (eapply ext_trans; eassumption). assert (X03 : ext m m3) by (eapply ext_trans; eassumption).
    rewrite R3, (rd_ext m1 m3 kb X13 (G_vs _ _ G1)), R1, (rd_ext m m3 value X03 VV).
    set (cv := Digest [Digest [r]; key; rd m value]).
    destruct (make cv m3) as [com m4] eqn:E4. destruct (make_G _ _ _ _ N3 E4) as (X4 & G4 & R4). assert (N4 : n0 <= length m4) by (apply ext_len in X4; lia).
    assert (X04 : ext m m4) by (eapply ext_trans; eassumption).
    destruct (copy_of growth value m4) as [v m5] eqn:E5. destruct (copy_of_G _ _ _ _ N4 (vs_ext _ _ _ X04 VV) E5) as (X5 & G5 & R5 & S5). assert (N5 : n0 <= length m5) by (apply ext_len in X5; lia).
    assert (X05 : ext m m5) by (eapply ext_trans; eassumption). rewrite (rd_ext m m5 idx X05 (G_vs _ _ GI)).
    destruct (make (map benc (ToBits (rd m idx))) m5) as [bits m6] eqn:E6. destruct (make_G _ _ _ _ N5 E6) as (X6 & G6 & R6). assert (N6 : n0 <= length m6) by (apply ext_len in X6; lia).
    assert (X06 : ext m m6) by (eapply ext_trans; eassumption). assert (X46 : ext m4 m6) by (eapply ext_trans; eassumption). assert (X36 : ext m3 m6) by (eapply ext_trans; eassumption).
    rewrite (rd_ext m m4 value X04 VV) in R5.
    set (d := mkRL key v idx salt com). unfold ss_tree in F. apply Forall_cons_iff in F as [F1 F]. apply Forall_cons_iff in F as [F2 F].
    assert (OKI : ins_ok d bits (ToBits (rd m idx)) (mkLeaf key (rd m value) (rd m idx) (mkCommit (Digest [r]) cv)) m6).
    { split; [exact N6|]. split; [apply G_vs; exact G6|]. split; [exact R6|]. split; [|split; [exact S5|]].
      - unfold ss_leaf, d. cbn [rl_value rl_index rl_salt rl_com]. constructor; [eapply G_ext; [exact X6|exact G5]|]. constructor; [eapply G_ext; [exact X06|exact GI]|].
        constructor; [eapply G_ext; [exact X36|exact G3]|]. constructor; [eapply G_ext; [exact X46|exact G4]|constructor].
      - unfold v_leaf, d. cbn [rl_key rl_value rl_index rl_salt rl_com].
        rewrite (rd_ext m5 m6 v X6 (G_vs _ _ G5)), R5, (rd_ext m m6 idx X06 (G_vs _ _ GI)), (rd_ext m3 m6 salt X36 (G_vs _ _ G3)), R3, (rd_ext m4 m6 com X46 (G_vs _ _ G4)), R4. reflexivity. }
    pose proof (insert_done _ _ _ _ (S (length (rd m6 bits))) 0 (rt_root t) m6 OKI (Gs_ext _ _ _ X06 F) NN (Nat.le_0_l _)) as D.
    rewrite R6, map_length in D. specialize (D ltac:(lia)). rewrite (v_node_ext m m6 _ X06 (Gs_vs _ _ F)) in D. cbn [skipn] in D.
    unfold insertNode. cbn [t_root v_tree t_nonce t_hash]. rewrite R6, map_length. cbv zeta. clearbody cv.
    destruct (insert _ (ToBits (rd m idx)) (ToBits (rd m idx)) 0 (v_node m (rt_root t))) as [root|]; cbn [done bind] in *; [|rewrite D; reflexivity].
    destruct D as (n' & m7 & -> & X7 & Fn & Nn & Vn). cbn [bind]. assert (X07 : ext m m7) by (eapply ext_trans; eassumption).
    eexists _, m7. split; [reflexivity|]. split; [exact X07|].
    split; [split; [constructor; [eapply G_ext; [exact X07|exact F1]|constructor; [eapply G_ext; [exact X07|exact F2]|exact Fn]]|exact Nn]|].
    unfold v_tree. cbn [rt_nonce rt_root rt_hash]. rewrite Vn, !(rd_ext m m7 _ X07) by (apply G_vs; assumption). reflexivity.
  Qed.

  (** ** Signed tree roots *)
  Lemma app_step m0 m s xs s' m' : ext m0 m -> vs m s -> (forall a, In a (arrays [s]) -> length m0 <= a) -> append growth s xs m = (s', m') ->
    ext m0 m' /\ vs m' s' /\ rd m' s' = rd m s ++ xs /\ (forall a, In a (arrays [s']) -> length m0 <= a).
  Proof. intros E V F H. destruct (append_eq _ _ _ _ _ _ E V F H) as (? & ? & ? & ? & _). auto. Qed.
  (** A slice on an array younger than [m0]; [make] keeps it and its contents. *)
  Lemma make_keep b m0 m t m' : ext m0 m -> make b m = (t, m') -> ext m m' /\ ext m0 m' /\ rd m' t = b.
  Proof. intros E H. destruct (make_eq _ _ _ _ H) as (X & _ & R & _). split; [exact X|]. split; [eapply ext_trans; eassumption|exact R]. Qed.
  Lemma pol_ser_eq p m s m' : vs m (rq_vrf p) -> r_pol_ser growth p m = (s, m') ->
    ext m m' /\ vs m' s /\ rd m' s = Policies_Serialize (v_pol m p) /\ (forall a, In a (arrays [s]) -> length m <= a).
  Proof.
    intros V. unfold r_pol_ser.
    destruct (append growth None (rq_version p) m) as [b1 m1] eqn:E1.
    destruct (app_step m m None _ _ _ (ext_refl m) I ltac:(intros a []) E1) as (X1 & V1 & R1 & A1).
    destruct (append growth b1 (rq_hashid p) m1) as [b2 m2] eqn:E2.
    destruct (app_step m m1 b1 _ _ _ X1 V1 A1 E2) as (X2 & V2 & R2 & A2).
    rewrite (rd_ext m m2 _ X2 V). destruct (append growth b2 (rd m (rq_vrf p)) m2) as [b3 m3] eqn:E3.
    destruct (app_step m m2 b2 _ _ _ X2 V2 A2 E3) as (X3 & V3 & R3 & A3).
    destruct (make (ULongToBytes (rq_deadline p)) m3) as [t m4] eqn:E4. destruct (make_keep _ m _ _ _ X3 E4) as (X34 & X4 & R4).
    rewrite R4. intro E5. destruct (app_step m m4 b3 _ _ _ X4 (vs_ext _ _ _ X34 V3) A3 E5) as (X5 & V5 & R5 & A5).
    split; [exact X5|]. split; [exact V5|]. split; [|exact A5]. rewrite R5, (rd_ext m3 m4 b3 X34 V3), R3, R2, R1. unfold Policies_Serialize, v_pol.
    cbn [rd pol_version pol_hashid pol_vrf pol_deadline app]. rewrite <- !app_assoc. reflexivity.
  Qed.
  Lemma ser_internal_eq hash e pe phash sg m s m' : vs m hash -> vs m phash -> r_ser_internal growth hash e pe phash m = (s, m') ->
    ext m m' /\ vs m' s /\ rd m' s = SerializeInternal (mkBody (rd m hash) e pe (rd m phash) sg) /\ (forall a, In a (arrays [s]) -> length m <= a).
  Proof.
    intros VH VP. unfold r_ser_internal.
    destruct (make (ULongToBytes e) m) as [t m1] eqn:E1. destruct (make_keep _ m _ _ _ (ext_refl m) E1) as (X1 & _ & R1). rewrite R1.
    destruct (append growth None (ULongToBytes e) m1) as [b2 m2] eqn:E2.
    destruct (app_step m m1 None _ _ _ X1 I ltac:(intros a []) E2) as (X2 & V2 & R2 & A2).
    match goal with |- match ?x with _ => _ end = _ -> _ => destruct x as [b3 m3] eqn:E3 end.
    assert (P3 : ext m m3 /\ vs m3 b3 /\ rd m3 b3 = ULongToBytes e ++ (if N.ltb 0 e then ULongToBytes pe else []) /\ (forall a, In a (arrays [b3]) -> length m <= a)).
    { destruct (N.ltb 0 e).
      - destruct (make (ULongToBytes pe) m2) as [t' m2'] eqn:E2'. destruct (make_keep _ m _ _ _ X2 E2') as (X22 & X2' & R2'). rewrite R2' in E3.
        destruct (app_step m m2' b2 _ _ _ X2' (vs_ext _ _ _ X22 V2) A2 E3) as (X3 & V3 & R3 & A3).
        split; [exact X3|]. split; [exact V3|]. split; [|exact A3]. rewrite R3, (rd_ext m2 m2' b2 X22 V2), R2. reflexivity.
      - injection E3 as <- <-. split; [exact X2|]. split; [exact V2|]. split; [|exact A2]. rewrite R2, app_nil_r. reflexivity. }
    destruct P3 as (X3 & V3 & R3 & A3). rewrite (rd_ext m m3 _ X3 VH).
    destruct (append growth b3 (rd m hash) m3) as [b4 m4] eqn:E4. destruct (app_step m m3 b3 _ _ _ X3 V3 A3 E4) as (X4 & V4 & R4 & A4).
    rewrite (rd_ext m m4 _ X4 VP). intro E5. destruct (app_step m m4 b4 _ _ _ X4 V4 A4 E5) as (X5 & V5 & R5 & A5).
    split; [exact X5|]. split; [exact V5|]. split; [|exact A5]. rewrite R5, R4, R3. unfold SerializeInternal. cbn [s_epoch s_pepoch s_hash s_phash].
    rewrite <- !app_assoc. reflexivity.
  Qed.

  Definition ok_str (m : mem) (s : rSTR) : Prop :=
    G m (rs_hash s) /\ G m (rs_phash s) /\ G m (rs_sig s) /\ G m (rq_vrf (rs_ad s)) /\ ok_tree m (rs_tree s).
  Lemma ok_str_ext m m' s : ext m m' -> ok_str m s -> ok_str m' s.
  Proof. intros E (H1 & H2 & H3 & H4 & H5). repeat (split; [eapply G_ext; eassumption|]). eapply ok_tree_ext; eassumption. Qed.
  Lemma v_str_ext m m' s : ext m m' -> ok_str m s -> v_str m' s = v_str m s.
  Proof.
    intros E (H1 & H2 & H3 & H4 & H5). unfold v_str, v_pol. rewrite !(rd_ext m m' _ E) by (apply G_vs; assumption).
    rewrite (v_tree_ext m m' _ E) by (apply Gs_vs; exact (proj1 H5)). reflexivity.
  Qed.
  Lemma NewSTR_done key ad t e phash m s m' : n0 <= length m -> vs m key -> G m (rq_vrf ad) -> ok_tree m t -> G m phash ->
    r_NewSTR growth key ad t e phash m = (s, m') ->
    ext m m' /\ ok_str m' s /\ rs_epoch s = e /\ v_str m' s = NewSTR Policies_Serialize (rd m key) (v_pol m ad) (v_tree m t) e (rd m phash).
  Proof.
    intros N VK GA OT GP. unfold r_NewSTR, NewSTR. set (pe := if N.eqb e 0 then 0%N else (e - 1)%N). clearbody pe. cbv zeta.
    assert (GH : G m (rt_hash t)) by (destruct OT as [F _]; apply Forall_inv_tail in F; apply Forall_inv in F; exact F).
    destruct (r_ser_internal growth (rt_hash t) e pe phash m) as [b1 m1] eqn:E1.
    destruct (ser_internal_eq _ _ _ _ [] _ _ _ (G_vs _ _ GH) (G_vs _ _ GP) E1) as (X1 & V1 & R1 & A1).
    assert (GA1 : G m1 (rq_vrf ad)) by (eapply G_ext; eassumption).
    destruct (r_pol_ser growth ad m1) as [p m2] eqn:E2. destruct (pol_ser_eq _ _ _ _ (G_vs _ _ GA1) E2) as (X2 & V2 & R2 & A2).
    rewrite R2. assert (X02 : ext m m2) by (eapply ext_trans; eassumption).
    destruct (append growth b1 (Policies_Serialize (v_pol m1 ad)) m2) as [b3 m3] eqn:E3.
    destruct (app_step m m2 b1 _ _ _ X02 (vs_ext _ _ _ X2 V1) A1 E3) as (X3 & V3 & R3 & A3).
    assert (VP : v_pol m1 ad = v_pol m ad) by (unfold v_pol; rewrite (rd_ext m m1 _ X1 (G_vs _ _ GA)); reflexivity).
    rewrite VP in R3. rewrite (rd_ext m1 m2 b1 X2 V1), R1 in R3. rewrite (rd_ext m m3 key X3 VK), R3.
    assert (N3 : n0 <= length m3) by (apply ext_len in X3; lia). unfold STR_Serialize. cbn [t_hash v_tree].
    set (sg := sign_sign _ _). clearbody sg.
    destruct (make sg m3) as [s4 m4] eqn:E4. destruct (make_G _ _ _ _ N3 E4) as (X4 & G4 & R4). intro H. injection H as <- <-.
    assert (X04 : ext m m4) by (eapply ext_trans; eassumption). split; [exact X04|].
    split; [split; [eapply G_ext; eassumption|]; split; [eapply G_ext; eassumption|]; split; [exact G4|]; split; [eapply G_ext; eassumption|]; eapply ok_tree_ext; eassumption|].
    split; [reflexivity|]. unfold v_str. cbn [rs_tree rs_hash rs_epoch rs_pepoch rs_phash rs_sig rs_ad].
    rewrite R4, (v_tree_ext m m4 t X04 (Gs_vs _ _ (proj1 OT))), (rd_ext m m4 _ X04 (G_vs _ _ GH)), (rd_ext m m4 _ X04 (G_vs _ _ GP)).
    unfold v_pol. rewrite (rd_ext m m4 _ X04 (G_vs _ _ GA)). reflexivity.
  Qed.

  (** ** The dictionary *)
  Definition ok_pad (m : mem) (p : rPAD) : Prop :=
    G m (rp_sign p) /\ G m (rp_vrf p) /\ G m (rq_vrf (rp_ad p)) /\ ok_tree m (rp_tree p) /\ ok_str m (rp_latest p) /\
    Forall (fun x => ok_str m (snd x)) (rp_snap p).
  Lemma ok_snap_ext m m' l : ext m m' -> Forall (fun x : N * rSTR => ok_str m (snd x)) l -> Forall (fun x : N * rSTR => ok_str m' (snd x)) l.
  Proof. intro E. apply Forall_impl. intros x. apply ok_str_ext. exact E. Qed.
  Lemma ok_pad_ext m m' p : ext m m' -> ok_pad m p -> ok_pad m' p.
  Proof.
    intros E (H1 & H2 & H3 & H4 & H5 & H6). split; [eapply G_ext; eassumption|]. split; [eapply G_ext; eassumption|]. split; [eapply G_ext; eassumption|].
    split; [eapply ok_tree_ext; eassumption|]. split; [eapply ok_str_ext; eassumption|]. eapply ok_snap_ext; eassumption.
  Qed.
  Lemma v_snap_ext m m' l : ext m m' -> Forall (fun x : N * rSTR => ok_str m (snd x)) l -> v_snap m' l = v_snap m l.
  Proof.
    intros E F. unfold v_snap. apply map_ext_in. intros x I. rewrite (v_str_ext m m' _ E); [reflexivity|]. exact (proj1 (Forall_forall _ _) F x I).
  Qed.
  Lemma v_pad_ext m m' p : ext m m' -> ok_pad m p -> v_pad m' p = v_pad m p.
  Proof.
    intros E (H1 & H2 & H3 & H4 & H5 & H6). unfold v_pad, v_pol. rewrite !(rd_ext m m' _ E) by (apply G_vs; assumption).
    rewrite (v_tree_ext m m' _ E) by (apply Gs_vs; exact (proj1 H4)). rewrite (v_str_ext m m' _ E H5), (v_snap_ext m m' _ E H6). reflexivity.
  Qed.
  Lemma map_get_v {K A B} (eqb : K -> K -> bool) (f : A -> B) k l :
    map_get eqb k (map (fun x => (fst x, f (snd x))) l) = option_map f (map_get eqb k l).
  Proof. induction l as [|[k' v] l IH]; cbn [map map_get fst snd option_map]; [reflexivity|]. destruct (eqb k k'); [reflexivity|exact IH]. Qed.
  Lemma map_del_v {K A B} (eqb : K -> K -> bool) (f : A -> B) k l :
    map_del eqb k (map (fun x => (fst x, f (snd x))) l) = map (fun x => (fst x, f (snd x))) (map_del eqb k l).
  Proof. induction l as [|[k' v] l IH]; cbn [map map_del fst snd]; [reflexivity|]. destruct (eqb k k'); [exact IH|]. cbn [map fst snd]. rewrite IH. reflexivity. Qed.
  Lemma map_del_ok {K A} (eqb : K -> K -> bool) (P : A -> Prop) k l : Forall (fun x => P (snd x)) l -> Forall (fun x => P (snd x)) (map_del eqb k l).
  Proof.
    induction l as [|[k' v] l IH]; intro F; cbn [map_del]; [constructor|]. pose proof (Forall_inv F) as F1. apply Forall_inv_tail in F.
    destruct (eqb k k'); [apply IH; exact F|]. constructor; [exact F1|apply IH; exact F].
  Qed.
  Lemma map_get_ok {K A} (eqb : K -> K -> bool) (P : A -> Prop) k l v : Forall (fun x => P (snd x)) l -> map_get eqb k l = Some v -> P v.
  Proof.
    induction l as [|[k' v'] l IH]; intro F; cbn [map_get]; [discriminate|]. pose proof (Forall_inv F) as F1. apply Forall_inv_tail in F.
    destruct (eqb k k'); [intro H; injection H as <-; exact F1|apply IH; exact F].
  Qed.

  Lemma evict_done m p snap loaded : ok_pad m p -> r_evict p = (snap, loaded) ->
    evict (v_pad m p) = (v_snap m snap, loaded) /\ Forall (fun x => ok_str m (snd x)) snap.
  Proof.
    intros (_ & _ & _ & _ & _ & F). unfold r_evict, evict. cbn [pd_loaded pd_cap pd_snap v_pad].
    destruct (Nat.eqb (length (rp_loaded p)) (rp_cap p)); intro E; injection E as <- <-; [|split; [reflexivity|exact F]].
    assert (P : forall es l, Forall (fun x => ok_str m (snd x)) l ->
      fold_left (fun s e => map_del N.eqb e s) es (v_snap m l) = v_snap m (fold_left (fun s e => map_del N.eqb e s) es l) /\
      Forall (fun x => ok_str m (snd x)) (fold_left (fun s e => map_del N.eqb e s) es l)).
    { clear. induction es as [|e es IH]; intros l F; cbn [fold_left]; [split; [reflexivity|exact F]|].
      unfold v_snap at 1. rewrite map_del_v. apply (IH (map_del N.eqb e l)). apply (map_del_ok N.eqb (ok_str m)). exact F. }
    destruct (P (firstn (rp_cap p / 2) (rp_loaded p)) (rp_snap p) F) as [P1 P2]. cbv zeta. split; [rewrite P1; reflexivity|exact P2].
  Qed.

  Lemma sign_root_done sign ad t e phash m t' s m' : n0 <= length m -> vs m sign -> G m (rq_vrf ad) -> ok_tree m t -> G m phash ->
    r_sign_root growth sign ad t e phash m = (t', s, m') ->
    ext m m' /\ ok_tree m' t' /\ ok_str m' s /\ rs_epoch s = e /\
    (v_tree m' t', v_str m' s) = signTreeRoot Policies_Serialize (rd m sign) (v_pol m ad) (v_tree m t) e (rd m phash).
  Proof.
    intros N VS GA OT GP. unfold r_sign_root, signTreeRoot.
    destruct (r_rehash t m) as [t1 m1] eqn:E1. destruct (rehash_done _ _ _ _ N OT E1) as (X1 & O1 & _ & V1).
    assert (N1 : n0 <= length m1) by (apply ext_len in X1; lia).
    destruct (r_Clone growth t1 m1) as [c m2] eqn:E2. destruct (Clone_done _ _ _ _ N1 O1 E2) as (X2 & O2 & V2).
    assert (N2 : n0 <= length m2) by (apply ext_len in X2; lia). assert (X02 : ext m m2) by (eapply ext_trans; eassumption).
    destruct (r_NewSTR growth sign ad c e phash m2) as [s3 m3] eqn:E3.
    destruct (NewSTR_done _ _ _ _ _ _ _ _ N2 (vs_ext _ _ _ X02 VS) (G_ext _ _ _ X02 GA) O2 (G_ext _ _ _ X02 GP) E3) as (X3 & O3 & EP & V3).
    intro H. injection H as <- <- <-. assert (X03 : ext m m3) by (eapply ext_trans; eassumption). assert (X13 : ext m1 m3) by (eapply ext_trans; eassumption).
    split; [exact X03|]. split; [eapply ok_tree_ext; eassumption|]. split; [exact O3|]. split; [exact EP|].
    rewrite (v_tree_ext m1 m3 t1 X13 (Gs_vs _ _ (proj1 O1))), V3, V2, V1. rewrite (rd_ext m m2 _ X02 VS), (rd_ext m m2 _ X02 (G_vs _ _ GP)).
    unfold v_pol. rewrite (rd_ext m m2 _ X02 (G_vs _ _ GA)). reflexivity.
  Qed.

  Lemma NewPAD_done ad sign vrf len r1 r2 m : n0 <= length m -> G m sign -> G m vrf -> G m (rq_vrf ad) ->
    match NewPAD Policies_Serialize (v_pol m ad) (rd m sign) (rd m vrf) len r1 r2 with
    | Panic => r_NewPAD growth ad sign vrf len r1 r2 m = Panic
    | Ok None => r_NewPAD growth ad sign vrf len r1 r2 m = Ok None
    | Ok (Some v) => exists p m', r_NewPAD growth ad sign vrf len r1 r2 m = Ok (Some (p, m')) /\ ext m m' /\ ok_pad m' p /\ v_pad m' p = v
    end.
  Proof.
    intros N GS GV GA. unfold NewPAD, r_NewPAD. pose proof (New_done r1 m N) as D. destruct (NewMerkleTree r1) as [t|]; [|rewrite D; reflexivity].
    destruct D as (t' & m1 & -> & X1 & O1 & <-). destruct r2 as [r|]; cbn [MakeRand option_map]; [|reflexivity].
    assert (N1 : n0 <= length m1) by (apply ext_len in X1; lia).
    destruct (make r m1) as [rb m2] eqn:E2. destruct (make_G _ _ _ _ N1 E2) as (X2 & G2 & R2). assert (N2 : n0 <= length m2) by (apply ext_len in X2; lia).
    rewrite R2. set (ph := Digest [r]). clearbody ph.
    destruct (make ph m2) as [phs m3] eqn:E3. destruct (make_G _ _ _ _ N2 E3) as (X3 & G3 & R3). assert (N3 : n0 <= length m3) by (apply ext_len in X3; lia).
    assert (X13 : ext m1 m3) by (eapply ext_trans; eassumption). assert (X03 : ext m m3) by (eapply ext_trans; eassumption).
    destruct (r_sign_root growth sign ad t' 0 phs m3) as [[t4 s4] m4] eqn:E4.
    destruct (sign_root_done _ _ _ _ _ _ _ _ _ N3 (vs_ext _ _ _ X03 (G_vs _ _ GS)) (G_ext _ _ _ X03 GA) (ok_tree_ext _ _ _ X13 O1) G3 E4) as (X4 & O4 & OS & EP & V4).
    rewrite R3, (rd_ext m m3 _ X03 (G_vs _ _ GS)), (v_tree_ext m1 m3 t' X13 (Gs_vs _ _ (proj1 O1))) in V4.
    assert (VP : v_pol m3 ad = v_pol m ad) by (unfold v_pol; rewrite (rd_ext m m3 _ X03 (G_vs _ _ GA)); reflexivity). rewrite VP in V4.
    rewrite <- V4. assert (X04 : ext m m4) by (eapply ext_trans; eassumption).
    eexists _, m4. split; [reflexivity|]. split; [exact X04|]. split.
    { split; [eapply G_ext; eassumption|]. split; [eapply G_ext; eassumption|]. split; [eapply G_ext; eassumption|]. split; [exact O4|]. split; [exact OS|].
      constructor; [exact OS|constructor]. }
    unfold v_pad, v_snap. cbn [rp_sign rp_vrf rp_tree rp_snap rp_loaded rp_cap rp_latest rp_ad map_set map_del map fst snd].
    rewrite (rd_ext m m4 _ X04 (G_vs _ _ GS)), (rd_ext m m4 _ X04 (G_vs _ _ GV)). unfold v_pol. rewrite (rd_ext m m4 _ X04 (G_vs _ _ GA)). reflexivity.
  Qed.

  Lemma Update_done p ad m p' m' : n0 <= length m -> ok_pad m p -> (forall a, ad = Some a -> G m (rq_vrf a)) -> r_Update growth p ad m = (p', m') ->
    ext m m' /\ ok_pad m' p' /\ v_pad m' p' = Update Policies_Serialize (v_pad m p) (option_map (v_pol m) ad).
  Proof.
    intros N OP GA. unfold r_Update, Update. destruct (r_evict p) as [snap loaded] eqn:EE. destruct (evict_done m _ _ _ OP EE) as [EV FS].
    rewrite EV. destruct OP as (H1 & H2 & H3 & H4 & H5 & H6).
    set (e := add64 (rs_epoch (rp_latest p)) 1).
    change (add64 (s_epoch (st_body (pd_latest (v_pad m p)))) 1) with e. clearbody e.
    change (s_sig (st_body (pd_latest (v_pad m p)))) with (rd m (rs_sig (rp_latest p))).
    set (ph := Digest [rd m (rs_sig (rp_latest p))]). clearbody ph.
    destruct (make ph m) as [phs m1] eqn:E1. destruct (make_G _ _ _ _ N E1) as (X1 & G1 & R1). assert (N1 : n0 <= length m1) by (apply ext_len in X1; lia).
    destruct (r_sign_root growth (rp_sign p) (rp_ad p) (rp_tree p) e phs m1) as [[t2 s2] m2] eqn:E2. intro H. injection H as <- <-.
    destruct (sign_root_done _ _ _ _ _ _ _ _ _ N1 (vs_ext _ _ _ X1 (G_vs _ _ H1)) (G_ext _ _ _ X1 H3) (ok_tree_ext _ _ _ X1 H4) G1 E2) as (X2 & O2 & OS & EP & V2).
    rewrite R1, (rd_ext m m1 _ X1 (G_vs _ _ H1)), (v_tree_ext m m1 _ X1 (Gs_vs _ _ (proj1 H4))) in V2.
    assert (VP : v_pol m1 (rp_ad p) = v_pol m (rp_ad p)) by (unfold v_pol; rewrite (rd_ext m m1 _ X1 (G_vs _ _ H3)); reflexivity). rewrite VP in V2.
    cbn [pd_sign pd_ad pd_tree pd_vrf pd_cap v_pad]. rewrite <- V2. assert (X02 : ext m m2) by (eapply ext_trans; eassumption). split; [exact X02|]. split.
    { split; [eapply G_ext; eassumption|]. split; [eapply G_ext; eassumption|]. split.
      { cbn [rp_ad]. destruct ad as [a|]; [|eapply G_ext; eassumption]. eapply G_ext; [exact X02|]. apply GA. reflexivity. }
      split; [exact O2|]. split; [exact OS|]. cbn [rp_snap]. unfold map_set. constructor; [exact OS|]. apply (map_del_ok N.eqb (ok_str m2)). eapply ok_snap_ext; eassumption. }
    unfold v_pad. cbn [rp_sign rp_vrf rp_tree rp_snap rp_loaded rp_cap rp_latest rp_ad].
    rewrite (rd_ext m m2 _ X02 (G_vs _ _ H1)), (rd_ext m m2 _ X02 (G_vs _ _ H2)). f_equal.
    - unfold v_snap, map_set. cbn [map fst snd]. rewrite <- map_del_v. fold (v_snap m2 snap). rewrite (v_snap_ext m m2 _ X02 FS). reflexivity.
    - destruct ad as [a|]; cbn [option_map]; unfold v_pol; [rewrite (rd_ext m m2 _ X02 (G_vs _ _ (GA a eq_refl))); reflexivity|rewrite (rd_ext m m2 _ X02 (G_vs _ _ H3)); reflexivity].
  Qed.

  Lemma index_done p key m i pf m' : n0 <= length m -> r_index p key m = (i, pf, m') ->
    ext m m' /\ G m' i /\ G m' pf /\ (rd m' i, rd m' pf) = vrf_prove (rd m (rp_vrf p)) key.
  Proof.
    intros N. unfold r_index. destruct (vrf_prove (rd m (rp_vrf p)) key) as [vi vp].
    destruct (make vp m) as [s1 m1] eqn:E1. destruct (make_G _ _ _ _ N E1) as (X1 & G1 & R1). assert (N1 : n0 <= length m1) by (apply ext_len in X1; lia).
    destruct (make vi m1) as [s2 m2] eqn:E2. destruct (make_G _ _ _ _ N1 E2) as (X2 & G2 & R2). intro H. injection H as <- <- <-.
    split; [eapply ext_trans; eassumption|]. split; [exact G2|]. split; [eapply G_ext; eassumption|]. rewrite R2, (rd_ext m1 m2 _ X2 (G_vs _ _ G1)), R1. reflexivity.
  Qed.
  Lemma PAD_Set_done p r key value m : n0 <= length m -> ok_pad m p -> vs m value ->
    match PAD_Set (v_pad m p) r key (rd m value) with
    | Panic => r_PAD_Set growth p r key value m = Panic
    | Ok o => exists o' m', r_PAD_Set growth p r key value m = Ok (o', m') /\ ext m m' /\
        match o' with None => o = None | Some p' => ok_pad m' p' /\ o = Some (v_pad m' p') end
    end.
  Proof.
    intros N OP VV. unfold PAD_Set, r_PAD_Set, Index. destruct (r_index p key m) as [[i pf] m1] eqn:E1. destruct (index_done _ _ _ _ _ _ N E1) as (X1 & G1 & _ & R1).
    cbn [pd_vrf v_pad]. rewrite <- R1. cbn [fst]. assert (N1 : n0 <= length m1) by (apply ext_len in X1; lia).
    destruct OP as (H1 & H2 & H3 & H4 & H5 & H6).
    pose proof (Set_done (rp_tree p) r i key value m1 N1 (ok_tree_ext _ _ _ X1 H4) G1 (vs_ext _ _ _ X1 VV)) as D.
    rewrite (v_tree_ext m m1 _ X1 (Gs_vs _ _ (proj1 H4))), (rd_ext m m1 _ X1 VV) in D. cbn [pd_tree v_pad].
    destruct (Set_ (v_tree m (rp_tree p)) r (rd m1 i) key (rd m value)) as [o|]; cbn [bind]; [|rewrite D; reflexivity].
    destruct D as (o' & m2 & -> & X2 & D). cbn [bind]. assert (X02 : ext m m2) by (eapply ext_trans; eassumption).
    eexists _, m2. split; [reflexivity|]. split; [exact X02|]. destruct o' as [t'|]; cbn [option_map]; [|rewrite D; reflexivity].
    destruct D as [O2 ->]. cbn [option_map]. split.
    { split; [eapply G_ext; eassumption|]. split; [eapply G_ext; eassumption|]. split; [eapply G_ext; eassumption|]. split; [exact O2|].
      split; [eapply ok_str_ext; eassumption|]. eapply ok_snap_ext; eassumption. }
    unfold v_pad. cbn [pd_sign pd_vrf pd_snap pd_loaded pd_cap pd_latest pd_ad rp_sign rp_vrf rp_tree rp_snap rp_loaded rp_cap rp_latest rp_ad].
    rewrite (rd_ext m m2 _ X02 (G_vs _ _ H1)), (rd_ext m m2 _ X02 (G_vs _ _ H2)), (v_snap_ext m m2 _ X02 H6), (v_str_ext m m2 _ X02 H5).
    unfold v_pol. rewrite (rd_ext m m2 _ X02 (G_vs _ _ H3)). reflexivity.
  Qed.
  Lemma GetSTR_done p e m : ok_pad m p ->
    GetSTR (v_pad m p) e = option_map (v_str m) (r_GetSTR p e) /\ (forall s, r_GetSTR p e = Some s -> ok_str m s).
  Proof.
    intros (H1 & H2 & H3 & H4 & H5 & H6). unfold GetSTR, r_GetSTR. change (s_epoch (st_body (pd_latest (v_pad m p)))) with (rs_epoch (rp_latest p)).
    destruct (N.leb (rs_epoch (rp_latest p)) e).
    - split; [reflexivity|]. intros s H. injection H as <-. exact H5.
    - cbn [pd_snap v_pad]. unfold v_snap. rewrite map_get_v. split; [reflexivity|]. intros s H. exact (map_get_ok N.eqb (ok_str m) _ _ _ H6 H).
  Qed.
  Lemma LookupInEpoch_done p key e m : n0 <= length m -> ok_pad m p ->
    match LookupInEpoch (v_pad m p) key e with
    | Panic => r_LookupInEpoch p key e m = Panic
    | Ok o => exists o' m', r_LookupInEpoch p key e m = Ok (o', m') /\ ext m m' /\
        match o' with None => o = None | Some a => Forall (G m') (ss_ap a) /\ o = Some (v_ap m' a) end
    end.
  Proof.
    intros N OP. destruct (GetSTR_done p e m OP) as [EQ OK]. unfold LookupInEpoch, r_LookupInEpoch. rewrite EQ.
    destruct (r_GetSTR p e) as [s|]; cbn [option_map]; [|exists None, m; split; [reflexivity|split; [apply ext_refl|reflexivity]]].
    specialize (OK s eq_refl). destruct (r_index p key m) as [[i pf] m1] eqn:E1. destruct (index_done _ _ _ _ _ _ N E1) as (X1 & G1 & Gp & R1).
    cbn [pd_vrf v_pad]. rewrite <- R1. assert (N1 : n0 <= length m1) by (apply ext_len in X1; lia). destruct OK as (_ & _ & _ & _ & OT).
    pose proof (Get_done (rs_tree s) i m1 N1 (ok_tree_ext _ _ _ X1 OT) G1) as D. rewrite (v_tree_ext m m1 _ X1 (Gs_vs _ _ (proj1 OT))) in D.
    cbn [st_tree v_str]. destruct (Get (v_tree m (rs_tree s)) (rd m1 i)) as [ap|]; cbn [done_ap bind] in *; [|rewrite D; reflexivity].
    destruct D as (a & m2 & -> & X2 & Fa & <-). cbn [bind]. eexists _, m2. split; [reflexivity|]. split; [eapply ext_trans; eassumption|].
    split.
    - unfold ss_ap in *. cbn [ra_nonce ra_lookup ra_vrf ra_leaf]. apply Forall_cons_iff in Fa as [F1 Fa]. apply Forall_cons_iff in Fa as [F2 Fa]. apply Forall_inv_tail in Fa.
      constructor; [exact F1|]. constructor; [exact F2|]. constructor; [eapply G_ext; eassumption|exact Fa].
    - unfold v_ap. cbn [ra_nonce ra_pruned ra_lookup ra_vrf ra_leaf ap_nonce ap_pruned ap_lookup ap_leaf]. rewrite (rd_ext m1 m2 _ X2 (G_vs _ _ Gp)). reflexivity.
  Qed.
  End Crypto.
End Facts.
