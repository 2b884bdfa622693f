(** C89: branches and memory accesses of the VRF do not depend on the private key.

    Reading guide (Leak.v): a function ending in [_l] returns what an observer of
    branches, addresses and lengths sees ([fst]) and the result ([snd]). *)
From Coq Require Import List NArith ZArith Lia Bool Arith String.
From Verif Require Import Base Extra25519 GoInt EdCode Field FieldPow Scalar EdConst Group FieldBytes GroupFacts EncFacts PointFacts VRF Leak.
Import ListNotations.
Local Open Scope Z_scope.

(** ** Proof rules *)
Definition same {A B} (m : leaky A) (m' : leaky B) : Prop := fst m = fst m'.
Lemma same_bnd {A B A' B'} (m : leaky A) (m' : leaky A') (k : A -> leaky B) (k' : A' -> leaky B') :
  same m m' -> (forall a a', same (k a) (k' a')) -> same (bnd m k) (bnd m' k').
Proof. unfold same, bnd. intros E H. cbn [fst]. rewrite E. f_equal. apply H. Qed.
Lemma same_bnd' {A B A' B'} (m : leaky A) (m' : leaky A') (k : A -> leaky B) (k' : A' -> leaky B') :
  same m m' -> same (k (snd m)) (k' (snd m')) -> same (bnd m k) (bnd m' k').
Proof. unfold same, bnd. intros E H. cbn [fst]. rewrite E. f_equal. exact H. Qed.
Lemma same_loop {S S'} (f : S -> nat -> leaky S) (f' : S' -> nat -> leaky S') : (forall s s' i, same (f s i) (f' s' i)) ->
  forall l s s', same (loop f l s) (loop f' l s').
Proof. intros H. induction l as [|i l IH]; intros s s'; [reflexivity|]. cbn [loop]. apply same_bnd; auto. Qed.
Lemma same_call {A B} f (a : A) (b : B) : same (call f a) (call f b). Proof. reflexivity. Qed.
Lemma same_ret {A B} (a : A) (b : B) : same (ret a) (ret b). Proof. reflexivity. Qed.
Lemma same_obs e : same (obs e) (obs e). Proof. reflexivity. Qed.
Lemma same_index {A B} a (l : list A) (l' : list B) i d d' : same (index a l i d) (index a l' i d'). Proof. reflexivity. Qed.
Lemma same_refl {A} (m : leaky A) : same m m. Proof. reflexivity. Qed.
Lemma snd_bnd {A B} (m : leaky A) (k : A -> leaky B) : snd (bnd m k) = snd (k (snd m)). Proof. reflexivity. Qed.
Lemma snd_ret {A} (a : A) : snd (ret a) = a. Proof. reflexivity. Qed.
Lemma snd_let {A B} (m : leaky A) (k : A -> leaky B) (v : A) (b : A -> B) :
  snd m = v -> (forall x, snd (k x) = b x) -> snd (bnd m k) = (let x := v in b x).
Proof. intros <- H. rewrite snd_bnd. apply H. Qed.
Lemma snd_step {A B} (m : leaky A) (k : A -> leaky B) (v : A) r : snd m = v -> snd (k v) = r -> snd (bnd m k) = r.
Proof. intros <- H. exact H. Qed.
Lemma snd_loop {S} (f : S -> nat -> leaky S) g : (forall s i, snd (f s i) = g s i) -> forall l s, snd (loop f l s) = fold_left g l s.
Proof. intro H. induction l as [|i l IH]; intro s; [reflexivity|]. cbn [loop fold_left]. rewrite snd_bnd, IH, H. reflexivity. Qed.
Lemma snd_branch {A} b (x y : leaky A) : snd (branch b x y) = if b then snd x else snd y.
Proof. destruct b; reflexivity. Qed.

(** ** Field and group: the same results, and traces that are constant *)
Ltac letstep := match goal with |- snd (bnd ?m ?k) = (let x := ?v in @?b x) => apply (snd_let m k v b); [|intro] end.
Lemma iter_swap {A} (f : A -> A) : forall k t, Nat.iter k f (f t) = Nat.iter (S k) f t.
Proof. induction k as [|k IH]; intro t; [reflexivity|]. change (f (Nat.iter k f (f t)) = f (Nat.iter (S k) f t)). rewrite IH. reflexivity. Qed.
Lemma squares_l_val n t : snd (squares_l n t) = squares n t.
Proof.
  unfold squares_l, squares. rewrite (snd_loop _ (fun t _ => FeSquare t)) by reflexivity. generalize (n - 1)%nat. intro k. generalize 1%nat.
  revert t. induction k as [|k IH]; intros t i; [reflexivity|]. cbn [seq fold_left]. rewrite IH. exact (iter_swap FeSquare k t).
Qed.
Lemma squares_l_same n t t' : same (squares_l n t) (squares_l n t').
Proof. apply same_loop. intros. apply same_call. Qed.
Lemma sq_l_val n t : snd (sq_l n t) = squares n (FeSquare t).
Proof. unfold sq_l. rewrite snd_bnd. apply squares_l_val. Qed.
Lemma sq_l_same n t t' : same (sq_l n t) (sq_l n t').
Proof. apply same_bnd; [apply same_call|]. intros. apply squares_l_same. Qed.
Ltac sm := repeat first [apply same_call|apply same_ret|apply same_obs|apply same_index|apply sq_l_same|apply same_bnd; [|intros]].
Lemma FeInvert_l_val z : snd (FeInvert_l z) = FeInvert z.
Proof. cbv delta [FeInvert_l FeInvert]; cbv beta. repeat (letstep; [first [apply sq_l_val|reflexivity]|]). reflexivity. Qed.
Lemma FeInvert_l_same z z' : same (FeInvert_l z) (FeInvert_l z').
Proof. unfold FeInvert_l. sm. Qed.
Lemma to_bytes_l_val X Y Z : snd (to_bytes_l X Y Z) = to_bytes X Y Z.
Proof.
  cbv delta [to_bytes_l to_bytes]; cbv beta. letstep; [apply FeInvert_l_val|]. letstep; [reflexivity|]. letstep; [reflexivity|]. letstep; [reflexivity|]. reflexivity.
Qed.
Lemma ext_ToBytes_l_val p : snd (ext_ToBytes_l p) = ext_ToBytes p. Proof. unfold ext_ToBytes_l, ext_ToBytes. apply to_bytes_l_val. Qed.
Lemma ext_ToBytes_l_same p p' : same (ext_ToBytes_l p) (ext_ToBytes_l p').
Proof. unfold ext_ToBytes_l, to_bytes_l. apply same_bnd; [apply FeInvert_l_same|intros]. sm. Qed.
Lemma proj_Double_l_val p : snd (proj_Double_l p) = proj_Double p.
Proof. cbv delta [proj_Double_l proj_Double]; cbv beta. repeat (letstep; [reflexivity|]). reflexivity. Qed.
Lemma proj_Double_l_same p p' : same (proj_Double_l p) (proj_Double_l p').
Proof. unfold proj_Double_l. sm. Qed.
Lemma ext_ToCached_l_val p : snd (ext_ToCached_l p) = ext_ToCached p. Proof. reflexivity. Qed.
Lemma ext_ToCached_l_same p p' : same (ext_ToCached_l p) (ext_ToCached_l p').
Proof. unfold ext_ToCached_l. sm. Qed.
Lemma ext_ToProjective_l_val p : snd (ext_ToProjective_l p) = ext_ToProjective p. Proof. reflexivity. Qed.
Lemma ext_ToProjective_l_same p p' : same (ext_ToProjective_l p) (ext_ToProjective_l p').
Proof. unfold ext_ToProjective_l. sm. Qed.
Lemma ext_Double_l_val p : snd (ext_Double_l p) = ext_Double p.
Proof. unfold ext_Double_l. rewrite snd_bnd. apply proj_Double_l_val. Qed.
Lemma ext_Double_l_same p p' : same (ext_Double_l p) (ext_Double_l p').
Proof. apply same_bnd; [apply ext_ToProjective_l_same|intros; apply proj_Double_l_same]. Qed.
Lemma comp_ToProjective_l_val p : snd (comp_ToProjective_l p) = comp_ToProjective p. Proof. reflexivity. Qed.
Lemma comp_ToProjective_l_same p p' : same (comp_ToProjective_l p) (comp_ToProjective_l p').
Proof. unfold comp_ToProjective_l. sm. Qed.
Lemma comp_ToExtended_l_val p : snd (comp_ToExtended_l p) = comp_ToExtended p. Proof. reflexivity. Qed.
Lemma comp_ToExtended_l_same p p' : same (comp_ToExtended_l p) (comp_ToExtended_l p').
Proof. unfold comp_ToExtended_l. sm. Qed.
Lemma GeDouble_l_val p : snd (GeDouble_l p) = GeDouble p.
Proof. unfold GeDouble_l. rewrite !snd_bnd, comp_ToExtended_l_val, proj_Double_l_val. reflexivity. Qed.
Lemma GeDouble_l_same p p' : same (GeDouble_l p) (GeDouble_l p').
Proof. apply same_bnd; [apply ext_ToProjective_l_same|intros]. apply same_bnd; [apply proj_Double_l_same|intros]. apply comp_ToExtended_l_same. Qed.
Lemma geAdd_l_val p q : snd (geAddSub_l false p q) = geAdd p q.
Proof. cbv delta [geAddSub_l geAdd]; cbv beta. repeat (letstep; [reflexivity|]). reflexivity. Qed.
Lemma geSub_l_val p q : snd (geAddSub_l true p q) = geSub p q.
Proof. cbv delta [geAddSub_l geSub]; cbv beta. repeat (letstep; [reflexivity|]). reflexivity. Qed.
Lemma geAdd_l_same p q p' q' : same (geAddSub_l false p q) (geAddSub_l false p' q').
Proof. unfold geAddSub_l. cbv iota. sm. Qed.
Lemma geMixedAdd_l_val p q : snd (geMixedAddSub_l false p q) = geMixedAdd p q.
Proof. cbv delta [geMixedAddSub_l geMixedAdd]; cbv beta. repeat (letstep; [reflexivity|]). reflexivity. Qed.
Lemma geMixedSub_l_val p q : snd (geMixedAddSub_l true p q) = geMixedSub p q.
Proof. cbv delta [geMixedAddSub_l geMixedSub]; cbv beta. repeat (letstep; [reflexivity|]). reflexivity. Qed.
Lemma geMixedAdd_l_same p q p' q' : same (geMixedAddSub_l false p q) (geMixedAddSub_l false p' q').
Proof. unfold geMixedAddSub_l. cbv iota. sm. Qed.
Lemma GeAdd_l_val a b : snd (GeAdd_l a b) = GeAdd a b.
Proof. unfold GeAdd_l. rewrite !snd_bnd, comp_ToExtended_l_val, geAdd_l_val, ext_ToCached_l_val. reflexivity. Qed.
Lemma GeAdd_l_same a b a' b' : same (GeAdd_l a b) (GeAdd_l a' b').
Proof. apply same_bnd; [apply ext_ToCached_l_same|intros]. apply same_bnd; [apply geAdd_l_same|intros]. apply comp_ToExtended_l_same. Qed.
Lemma ext_CMove_l_val t u b : snd (ext_CMove_l t u b) = ext_CMove t u b. Proof. reflexivity. Qed.
Lemma ext_CMove_l_same t u b t' u' b' : same (ext_CMove_l t u b) (ext_CMove_l t' u' b').
Proof. unfold ext_CMove_l. sm. Qed.
Lemma pre_CMove_l_val t u b : snd (pre_CMove_l t u b) = pre_CMove t u b. Proof. reflexivity. Qed.
Lemma pre_CMove_l_same t u b t' u' b' : same (pre_CMove_l t u b) (pre_CMove_l t' u' b').
Proof. unfold pre_CMove_l. sm. Qed.

(** ** Scalar multiplication *)
Lemma scalarBit_l_val a i : snd (scalarBit_l a i) = scalarBit a i. Proof. reflexivity. Qed.
Lemma GeScalarMult_l_val a A : snd (GeScalarMult_l a A) = GeScalarMult a A.
Proof.
  unfold GeScalarMult_l, GeScalarMult. rewrite snd_bnd. rewrite snd_ret. apply (f_equal (@snd extended extended)). apply snd_loop. intros [p q] i. cbv delta [GeScalarMult_round]; cbv beta iota.
  letstep; [apply scalarBit_l_val|]. letstep; [apply GeAdd_l_val|]. letstep; [reflexivity|]. letstep; [apply GeDouble_l_val|]. reflexivity.
Qed.
(** The scalar does not matter, nor does the point. *)
Lemma GeScalarMult_l_same a A a' A' : same (GeScalarMult_l a A) (GeScalarMult_l a' A').
Proof.
  apply same_bnd; [|intros; apply same_ret]. apply same_loop. intros [p q] [p' q'] i.
  apply same_bnd; [unfold scalarBit_l; sm|intros]. apply same_bnd; [apply GeAdd_l_same|intros]. apply same_bnd; [apply ext_CMove_l_same|intros].
  apply same_bnd; [apply GeDouble_l_same|intros]. apply same_ret.
Qed.
Lemma selectPoint_l_val pos b : snd (selectPoint_l pos b) = selectPoint (nth pos base []) b.
Proof.
  cbv delta [selectPoint_l selectPoint]; cbv beta. letstep; [reflexivity|]. set (bAbs := wrap I32 _). cbv zeta. rewrite !snd_bnd. cbn [index call snd].
  rewrite (snd_loop _ (fun t i => pre_CMove t (nth i (nth pos base []) pre_dummy) (equal bAbs (Z.of_nat i + 1)))) by reflexivity.
  rewrite pre_CMove_l_val. reflexivity.
Qed.
Lemma selectPoint_l_same pos b b' : same (selectPoint_l pos b) (selectPoint_l pos b').
Proof.
  unfold selectPoint_l. apply same_bnd; [apply same_call|intros]. cbv zeta. apply same_bnd; [apply same_index|intros]. apply same_bnd.
  - apply same_loop. intros. apply same_bnd; [apply same_index|intros]. apply same_bnd; [apply same_call|intros]. apply pre_CMove_l_same.
  - intros. apply same_bnd; [apply same_call|intros]. apply pre_CMove_l_same.
Qed.
Lemma nibbles_l_val a : forall i, snd (nibbles_l i a) = nibbles a.
Proof. induction a as [|v a IH]; intro i; [reflexivity|]. cbn [nibbles_l]. rewrite !snd_bnd, IH. reflexivity. Qed.
Lemma nibbles_l_same : forall a a' i, List.length a = List.length a' -> same (nibbles_l i a) (nibbles_l i a').
Proof.
  induction a as [|v a IH]; intros [|v' a'] i L; try discriminate L; [reflexivity|]. injection L as L. cbn [nibbles_l].
  apply same_bnd; [apply same_obs|intros]. apply same_bnd; [apply IH, L|intros]. apply same_ret.
Qed.
Lemma nibbles_length : forall a, List.length (nibbles a) = (2 * List.length a)%nat.
Proof. induction a as [|v a IH]; [reflexivity|]. unfold nibbles in *. cbn [flat_map app List.length]. rewrite IH. lia. Qed.
Lemma recode_l_val : forall e i carry, snd (recode_l i carry e) = recode carry e.
Proof.
  induction e as [|x [|y e] IH]; intros i carry; [reflexivity|reflexivity|]. cbn [recode_l recode]. rewrite snd_bnd. cbv zeta.
  rewrite snd_bnd. rewrite ?snd_ret. f_equal. apply IH.
Qed.
Lemma recode_l_same : forall e e' i carry carry', List.length e = List.length e' -> same (recode_l i carry e) (recode_l i carry' e').
Proof.
  induction e as [|x e IH]; intros [|x' e'] i carry carry' L; try discriminate L; [reflexivity|]. injection L as L.
  destruct e as [|y e]; destruct e' as [|y' e']; try discriminate L; [reflexivity|].
  cbn [recode_l]. apply same_bnd; [apply same_obs|intros]. cbv zeta. apply same_bnd; [|intros; apply same_ret]. apply (IH (y' :: e')). exact L.
Qed.
Lemma smb_add_l_val e h i : snd (smb_add_l e h i) = smb_add e h i.
Proof. unfold smb_add_l. rewrite !snd_bnd, comp_ToExtended_l_val, geMixedAdd_l_val, selectPoint_l_val. reflexivity. Qed.
Lemma smb_add_l_same e e' h h' i : same (smb_add_l e h i) (smb_add_l e' h' i).
Proof.
  unfold smb_add_l. apply same_bnd; [apply same_index|intros]. apply same_bnd; [apply selectPoint_l_same|intros].
  apply same_bnd; [apply geMixedAdd_l_same|intros]. apply comp_ToExtended_l_same.
Qed.
Lemma GeScalarMultBase_l_val a : snd (GeScalarMultBase_l a) = GeScalarMultBase a.
Proof.
  cbv delta [GeScalarMultBase_l GeScalarMultBase]; cbv beta. apply (snd_step _ _ (nibbles a)); [apply nibbles_l_val|].
  letstep; [apply recode_l_val|]. letstep; [apply snd_loop; intros; apply smb_add_l_val|]. letstep; [apply ext_Double_l_val|].
  rewrite snd_bnd, comp_ToProjective_l_val. letstep; [apply proj_Double_l_val|].
  rewrite snd_bnd, comp_ToProjective_l_val. letstep; [apply proj_Double_l_val|].
  rewrite snd_bnd, comp_ToProjective_l_val. letstep; [apply proj_Double_l_val|].
  letstep; [apply comp_ToExtended_l_val|]. apply snd_loop. intros. apply smb_add_l_val.
Qed.
Lemma GeScalarMultBase_l_same a a' : List.length a = List.length a' -> same (GeScalarMultBase_l a) (GeScalarMultBase_l a').
Proof.
  intro L. unfold GeScalarMultBase_l. apply same_bnd'; [apply nibbles_l_same, L|]. rewrite !nibbles_l_val.
  apply same_bnd; [apply recode_l_same; rewrite !nibbles_length, L; reflexivity|intros].
  apply same_bnd; [apply same_loop; intros; apply smb_add_l_same|intros].
  apply same_bnd; [apply ext_Double_l_same|intros].
  do 3 (apply same_bnd; [apply comp_ToProjective_l_same|intros]; apply same_bnd; [apply proj_Double_l_same|intros]).
  apply same_bnd; [apply comp_ToExtended_l_same|intros]. apply same_loop. intros. apply smb_add_l_same.
Qed.
Lemma ScNeg_loop_l_val : forall l i carry s, snd (ScNeg_loop_l i carry l s) = ScNeg_loop carry l s.
Proof.
  induction l as [|x l IH]; intros i carry s; [reflexivity|]. destruct s as [|b s]; [reflexivity|]. cbn [ScNeg_loop_l ScNeg_loop].
  rewrite !snd_bnd. cbn [call snd ret]. destruct (ScNeg_step carry x (byteZ b)) as [r c]. cbn [fst snd]. rewrite IH. reflexivity.
Qed.
Lemma ScNeg_loop_l_same : forall l i carry carry' s s', List.length s = List.length s' -> same (ScNeg_loop_l i carry l s) (ScNeg_loop_l i carry' l s').
Proof.
  induction l as [|x l IH]; intros i carry carry' s s' L; [reflexivity|]. destruct s as [|b s], s' as [|b' s']; try discriminate L; [reflexivity|].
  injection L as L. cbn [ScNeg_loop_l]. apply same_bnd; [apply same_obs|intros]. apply same_bnd; [apply same_obs|intros].
  apply same_bnd; [apply same_call|intros p p']. apply same_bnd; [apply IH, L|intros; apply same_ret].
Qed.

(** ** Hashing to the curve *)
Ltac letin := match goal with |- ?l = (let x := ?v in @?b x) => let g := eval cbv beta in (b v) in change (l = g) end.
Lemma finish_l_val bit y X : snd (finish_l bit y X) =
  (let '(neg, X) := FeIsNegative X in let X := if Z.eqb neg bit then X else FeNeg X in (true, mkExt X y FeOne (FeMul X y))).
Proof.
  unfold finish_l. rewrite snd_bnd. change (snd (call "FeIsNegative" (FeIsNegative X))) with (FeIsNegative X).
  destruct (FeIsNegative X) as [neg X']. cbn [fst snd]. rewrite snd_bnd, snd_branch. destruct (Z.eqb neg bit); reflexivity.
Qed.
Lemma FromParityAndY_l_val T0 bit y : snd (FromParityAndY_l T0 bit y) = FromParityAndY T0 bit y.
Proof.
  cbv delta [FromParityAndY_l FromParityAndY]. cbv beta. letin. letin.
  do 15 (letstep; [reflexivity|]). letin.
  rewrite snd_bnd. match goal with |- context [snd (call _ ?v)] => change (snd (call "FeIsNonZero" v)) with v end. rewrite snd_branch.
  match goal with |- context [FeIsNonZero ?c] => destruct (Z.eqb (fst (FeIsNonZero c)) 1) end; [|apply finish_l_val].
  letstep; [reflexivity|]. rewrite snd_bnd. match goal with |- context [snd (call _ ?v)] => change (snd (call "FeIsNonZero" v)) with v end. rewrite snd_branch.
  match goal with |- context [FeIsNonZero ?c] => destruct (Z.eqb (fst (FeIsNonZero c)) 1) end; [reflexivity|].
  letstep; [reflexivity|]. letstep; [reflexivity|]. apply finish_l_val.
Qed.
Lemma HashToEdwards_l_val T0 h : snd (HashToEdwards_l T0 h) = HashToEdwards T0 h.
Proof.
  cbv delta [HashToEdwards_l HashToEdwards]. cbv beta. rewrite snd_bnd. 
  change (snd (index "h" h 31 x00)) with (nth 31 h x00).
  match goal with |- snd (let x := ?v in @?b x) = ?r => let g := eval cbv beta in (b v) in change (snd g = r) end.
  letin. letin. do 3 (letstep; [reflexivity|]). 
  match goal with |- snd (bnd ?m ?k) = _ => rewrite (snd_bnd m k) end. rewrite FromParityAndY_l_val, snd_branch.
  match goal with |- context [FromParityAndY ?a ?b ?c] => destruct (FromParityAndY a b c) as [[] p] end; reflexivity.
Qed.

(** ** crypto/vrf *)
Section VRF.
  Variable xof : bytes -> nat -> bytes.
  Hypothesis xof_len : forall m n, List.length (xof m n) = n.

  Lemma clamp_length x : List.length (clamp x) = List.length x.
  Proof.
    assert (U : forall (v : byte) l i, List.length (update i v l) = List.length l).
    { intros v. induction l as [|y l IH]; intros [|i]; try reflexivity. cbn [update List.length]. rewrite IH. reflexivity. }
    unfold clamp. cbv zeta. rewrite !U. reflexivity.
  Qed.
  Lemma ext_ToBytes_length p : List.length (ext_ToBytes p) = 32%nat.
  Proof.
    unfold ext_ToBytes, to_bytes. cbv zeta. unfold xor_top. rewrite app_length, firstn_length.
    match goal with |- context [fst (FeToBytes ?y)] => assert (L : List.length (fst (FeToBytes y)) = 32%nat) by (unfold FeToBytes; cbv zeta; cbn [fst]; rewrite map_length; reflexivity); rewrite L end.
    reflexivity.
  Qed.
  Lemma ScReduce_length s : List.length (ScReduce s) = 32%nat.
  Proof. unfold ScReduce. cbv zeta. rewrite map_length. reflexivity. Qed.
  Lemma same_hash m m' n : List.length m = List.length m' -> same (hash_l xof m n) (hash_l xof m' n).
  Proof. intro L. unfold same, hash_l. cbn [fst]. rewrite L. reflexivity. Qed.
  Lemma expandSecret_l_val sk : snd (expandSecret_l xof sk) = expandSecret xof sk. Proof. reflexivity. Qed.
  Lemma expandSecret_l_same sk sk' : List.length sk = List.length sk' -> same (expandSecret_l xof sk) (expandSecret_l xof sk').
  Proof. intro L. unfold expandSecret_l. apply same_bnd; [apply same_hash; rewrite !firstn_length, L; reflexivity|intros; sm]. Qed.
  Lemma secret_length sk : List.length (fst (expandSecret xof sk)) = 32%nat /\ List.length (snd (expandSecret xof sk)) = 32%nat.
  Proof. unfold expandSecret. cbn [fst snd]. rewrite clamp_length, firstn_length, skipn_length, xof_len. split; reflexivity. Qed.
  Lemma hashToCurve_l_val m : snd (hashToCurve_l xof m) = hashToCurve xof m.
  Proof.
    unfold hashToCurve_l, hashToCurve. rewrite snd_bnd. change (snd (hash_l xof m 32)) with (xof m 32%nat).
    match goal with |- snd (bnd ?m ?k) = _ => rewrite (snd_bnd m k) end. rewrite HashToEdwards_l_val.
    destruct (HashToEdwards FeZero (xof m 32%nat)) as [p|]; [|reflexivity].
    do 3 (match goal with |- snd (bnd ?m ?k) = _ => rewrite (snd_bnd m k) end; rewrite GeDouble_l_val). reflexivity.
  Qed.
  Lemma Compute_l_val sk m : snd (Compute_l xof sk m) = Compute xof sk m.
  Proof.
    unfold Compute_l, Compute. rewrite snd_bnd, expandSecret_l_val. cbv zeta. rewrite snd_bnd, hashToCurve_l_val.
    destruct (hashToCurve xof m) as [h|]; [|reflexivity].
    match goal with |- snd (bnd ?m ?k) = _ => rewrite (snd_bnd m k) end. rewrite GeScalarMult_l_val.
    match goal with |- snd (bnd ?m ?k) = _ => rewrite (snd_bnd m k) end. rewrite ext_ToBytes_l_val. reflexivity.
  Qed.
  Ltac st L := match goal with |- snd (bnd ?m ?k) = _ => rewrite (snd_bnd m k) end; rewrite L.
  Ltac st' := match goal with |- snd (bnd (call ?f ?v) ?k) = _ => rewrite (snd_bnd (call f v) k); change (snd (call f v)) with v
    | |- snd (bnd (hash_l xof ?a ?b) ?k) = _ => rewrite (snd_bnd (hash_l xof a b) k); change (snd (hash_l xof a b)) with (xof a b) end.
  Lemma Prove_l_val sk m : snd (Prove_l xof sk m) = Prove xof sk m.
  Proof.
    unfold Prove_l, Prove. rewrite snd_bnd, expandSecret_l_val. destruct (expandSecret xof sk) as [x skhr]. rewrite snd_bnd, hashToCurve_l_val.
    destruct (hashToCurve xof m) as [h|]; [|reflexivity]. cbn [fst snd]. cbv zeta.
    st (ext_ToBytes_l_val h). st GeScalarMult_l_val. st ext_ToBytes_l_val. st'. st'. st GeScalarMultBase_l_val. st GeScalarMult_l_val.
    st ext_ToBytes_l_val. st ext_ToBytes_l_val. st'. st'. unfold ScNeg_l'. st ScNeg_loop_l_val. st'. st'. reflexivity.
  Qed.

  (** [Prove]: same result, and a trace that is the same for every private key. *)
  Theorem C89_prove : forall sk sk' m, List.length sk = 64%nat -> List.length sk' = 64%nat ->
    snd (Prove_l xof sk m) = Prove xof sk m /\ fst (Prove_l xof sk m) = fst (Prove_l xof sk' m).
  Proof.
    intros sk sk' m L L'. split; [apply Prove_l_val|].
    unfold Prove_l. apply same_bnd'; [apply expandSecret_l_same; rewrite L, L'; reflexivity|]. rewrite !expandSecret_l_val.
    destruct (secret_length sk) as (Lx & Lr). destruct (secret_length sk') as (Lx' & Lr').
    destruct (expandSecret xof sk) as [x r0]. destruct (expandSecret xof sk') as [x' r0']. cbn [fst snd] in *.
    apply same_bnd'; [apply same_refl|]. destruct (snd (hashToCurve_l xof m)) as [h|]; [|apply same_ret].
    apply same_bnd'; [apply same_refl|]. rewrite !ext_ToBytes_l_val.
    apply same_bnd; [apply GeScalarMult_l_same|intros ii ii'].
    apply same_bnd'; [apply ext_ToBytes_l_same|]. rewrite !ext_ToBytes_l_val. pose proof (ext_ToBytes_length ii) as Li. pose proof (ext_ToBytes_length ii') as Li'.
    set (hx := ext_ToBytes ii) in *. set (hx' := ext_ToBytes ii') in *. clearbody hx hx'.
    apply same_bnd; [apply same_hash; rewrite !app_length, !skipn_length, L, L', Lr, Lr'; reflexivity|intros rH rH'].
    apply same_bnd'; [apply same_call|]. change (snd (call "ScReduce" (ScReduce rH))) with (ScReduce rH). change (snd (call "ScReduce" (ScReduce rH'))) with (ScReduce rH').
    pose proof (ScReduce_length rH) as Rr. pose proof (ScReduce_length rH') as Rr'. set (r := ScReduce rH) in *. set (r' := ScReduce rH') in *. clearbody r r'.
    apply same_bnd; [apply GeScalarMultBase_l_same; rewrite Rr, Rr'; reflexivity|intros gr gr'].
    apply same_bnd; [apply GeScalarMult_l_same|intros hr hr'].
    apply same_bnd'; [apply ext_ToBytes_l_same|]. rewrite !ext_ToBytes_l_val. pose proof (ext_ToBytes_length gr) as Lg. pose proof (ext_ToBytes_length gr') as Lg'.
    set (gB := ext_ToBytes gr) in *. set (gB' := ext_ToBytes gr') in *. clearbody gB gB'.
    apply same_bnd'; [apply ext_ToBytes_l_same|]. rewrite !ext_ToBytes_l_val. pose proof (ext_ToBytes_length hr) as Lh. pose proof (ext_ToBytes_length hr') as Lh'.
    set (hrB := ext_ToBytes hr) in *. set (hrB' := ext_ToBytes hr') in *. clearbody hrB hrB'.
    apply same_bnd; [apply same_hash; rewrite !app_length, !skipn_length, L, L', Li, Li', Lg, Lg', Lh, Lh'; reflexivity|intros sH sH'].
    apply same_bnd'; [apply same_call|]. change (snd (call "ScReduce" (ScReduce sH))) with (ScReduce sH). change (snd (call "ScReduce" (ScReduce sH'))) with (ScReduce sH').
    pose proof (ScReduce_length sH) as Ss. pose proof (ScReduce_length sH') as Ss'. set (s := ScReduce sH) in *. set (s' := ScReduce sH') in *. clearbody s s'.
    apply same_bnd; [apply ScNeg_loop_l_same; rewrite Ss, Ss'; reflexivity|intros ms ms'].
    apply same_bnd; [apply same_call|intros t t']. apply same_bnd; [apply same_hash; rewrite !app_length, Li, Li'; reflexivity|intros; apply same_ret].
  Qed.
  Theorem C89_compute : forall sk sk' m, List.length sk = 64%nat -> List.length sk' = 64%nat ->
    snd (Compute_l xof sk m) = Compute xof sk m /\ fst (Compute_l xof sk m) = fst (Compute_l xof sk' m).
  Proof.
    intros sk sk' m L L'. split; [apply Compute_l_val|].
    unfold Compute_l. apply same_bnd; [apply expandSecret_l_same; rewrite L, L'; reflexivity|intros xr xr'].
    apply same_bnd'; [apply same_refl|]. destruct (snd (hashToCurve_l xof m)) as [h|]; [|apply same_ret].
    apply same_bnd; [apply GeScalarMult_l_same|intros ii ii'].
    apply same_bnd'; [apply ext_ToBytes_l_same|]. rewrite !ext_ToBytes_l_val.
    apply same_bnd; [apply same_hash; rewrite !app_length, !ext_ToBytes_length; reflexivity|intros; apply same_ret].
  Qed.
  Theorem C89_generate : forall seed seed', List.length seed = 32%nat -> List.length seed' = 32%nat ->
    Some (snd (GenerateKey_l xof seed)) = GenerateKey xof (Some seed) /\ fst (GenerateKey_l xof seed) = fst (GenerateKey_l xof seed').
  Proof.
    intros sd sd' L L'. split.
    - unfold GenerateKey. apply (f_equal Some). unfold GenerateKey_l. rewrite snd_bnd, expandSecret_l_val. st GeScalarMultBase_l_val. st ext_ToBytes_l_val. reflexivity.
    - unfold GenerateKey_l. apply same_bnd'; [apply expandSecret_l_same; rewrite L, L'; reflexivity|]. rewrite !expandSecret_l_val.
      apply same_bnd; [apply GeScalarMultBase_l_same; rewrite (proj1 (secret_length sd)), (proj1 (secret_length sd')); reflexivity|intros].
      apply same_bnd; [apply ext_ToBytes_l_same|intros; apply same_ret].
  Qed.
End VRF.

(** The two multiplications used with secret scalars. *)
Theorem C89_scalar_mult : forall a a' A A',
  snd (GeScalarMult_l a A) = GeScalarMult a A /\ fst (GeScalarMult_l a A) = fst (GeScalarMult_l a' A').
Proof. intros. split; [apply GeScalarMult_l_val|apply GeScalarMult_l_same]. Qed.
Theorem C89_scalar_mult_base : forall a a', List.length a = 32%nat -> List.length a' = 32%nat ->
  snd (GeScalarMultBase_l a) = GeScalarMultBase a /\ fst (GeScalarMultBase_l a) = fst (GeScalarMultBase_l a').
Proof. intros a a' L L'. split; [apply GeScalarMultBase_l_val|apply GeScalarMultBase_l_same; rewrite L, L'; reflexivity]. Qed.
(** Straight-line code touches the same variables in the same order whatever their values are. *)
Theorem C89_straight_line : forall p e e', snd (exec_trace e p) = exec e p /\ fst (exec_trace e p) = fst (exec_trace e' p).
Proof.
  assert (A : forall p l e e', snd (fold_left (fun st s => ((fst st ++ [(reads (snd s), fst s)])%list, upd (snd st) (fst s) (eval (snd st) (snd s)))) p (l, e)) = exec e p /\
    fst (fold_left (fun st s => ((fst st ++ [(reads (snd s), fst s)])%list, upd (snd st) (fst s) (eval (snd st) (snd s)))) p (l, e)) =
    fst (fold_left (fun st s => ((fst st ++ [(reads (snd s), fst s)])%list, upd (snd st) (fst s) (eval (snd st) (snd s)))) p (l, e'))).
  { induction p as [|s p IH]; intros l e e'; [split; reflexivity|]. unfold exec. cbn [fold_left fst snd]. apply IH. }
  intros p e e'. apply A.
Qed.

(** ** What does leak *)
Lemma slide_carry_l_val : forall r, snd (slide_carry_l r) = slide_carry r.
Proof.
  induction r as [|x r IH]; [reflexivity|]. cbn [slide_carry_l slide_carry]. rewrite snd_branch, snd_bnd, IH. destruct (Z.eqb x 0); reflexivity.
Qed.
Lemma slide_inner_l_val : forall n b x rest, snd (slide_inner_l n b x rest) = slide_inner n b x rest.
Proof.
  induction n as [|n IH]; intros b x rest; [reflexivity|]. cbn [slide_inner_l slide_inner]. rewrite snd_branch.
  destruct (Nat.leb b (List.length rest)); [|reflexivity]. rewrite snd_bnd, snd_ret, snd_branch. cbv zeta.
  destruct (Z.eqb (nth (b - 1) rest 0) 0); [apply IH|]. rewrite !snd_branch, snd_bnd, slide_carry_l_val, !IH. reflexivity.
Qed.
Lemma slide_loop_l_val : forall n r, snd (slide_loop_l n r) = slide_loop n r.
Proof.
  induction n as [|n IH]; intros [|x rest]; try reflexivity. cbn [slide_loop_l slide_loop]. rewrite !snd_bnd, snd_branch, snd_ret, slide_inner_l_val, snd_ret, IH.
  destruct (Z.eqb x 0); [reflexivity|]. destruct (slide_inner 6 1 x rest) as [x' rest']. reflexivity.
Qed.
Lemma slide_l_val a : snd (slide_l a) = slide a.
Proof. unfold slide_l. rewrite snd_bnd. apply slide_loop_l_val. Qed.
Lemma table_from_l_val A2 : forall n c, snd (table_from_l A2 n c) = table_from A2 n c.
Proof.
  induction n as [|n IH]; intro c; [reflexivity|]. cbn [table_from_l table_from]. rewrite snd_bnd, geAdd_l_val. rewrite snd_bnd, comp_ToExtended_l_val.
  rewrite snd_bnd, ext_ToCached_l_val. rewrite snd_bnd, IH. reflexivity.
Qed.
Lemma dsm_round_l_val Ai r ab : snd (dsm_round_l Ai r ab) = dsm_round Ai r ab.
Proof.
  destruct ab as [x y]. cbv delta [dsm_round_l dsm_round]; cbv beta iota. letstep; [apply proj_Double_l_val|]. letstep; [|letstep].
  - rewrite !snd_branch. destruct (Z.ltb 0 x); [rewrite snd_bnd, comp_ToExtended_l_val, snd_bnd, geAdd_l_val; reflexivity|].
    destruct (Z.ltb x 0); [rewrite snd_bnd, comp_ToExtended_l_val, snd_bnd, geSub_l_val; reflexivity|reflexivity].
  - rewrite !snd_branch. destruct (Z.ltb 0 y); [rewrite snd_bnd, comp_ToExtended_l_val, snd_bnd, geMixedAdd_l_val; reflexivity|].
    destruct (Z.ltb y 0); [rewrite snd_bnd, comp_ToExtended_l_val, snd_bnd, geMixedSub_l_val; reflexivity|reflexivity].
  - apply comp_ToProjective_l_val.
Qed.
Lemma skip_zeros_l_val : forall l, snd (skip_zeros_l l) = skip_zeros l.
Proof. induction l as [|[x y] l IH]; [reflexivity|]. cbn [skip_zeros_l skip_zeros]. rewrite snd_branch, IH, snd_ret. reflexivity. Qed.
Lemma dsm_loop_l_val Ai : forall l r, snd (dsm_loop_l Ai l r) = fold_left (dsm_round Ai) l r.
Proof. induction l as [|ab l IH]; intro r; [reflexivity|]. cbn [dsm_loop_l fold_left]. rewrite snd_bnd, dsm_round_l_val. apply IH. Qed.
Lemma GeDoubleScalarMultVartime_l_val a A b : snd (GeDoubleScalarMultVartime_l a A b) = GeDoubleScalarMultVartime a A b.
Proof.
  cbv delta [GeDoubleScalarMultVartime_l GeDoubleScalarMultVartime cached_table]; cbv beta. letstep; [apply slide_l_val|]. letstep; [apply slide_l_val|].
  rewrite snd_bnd, ext_ToCached_l_val. rewrite snd_bnd, ext_Double_l_val. rewrite snd_bnd, comp_ToExtended_l_val.
  letstep; [apply table_from_l_val|]. rewrite snd_bnd, skip_zeros_l_val. apply dsm_loop_l_val.
Qed.
(** [GeDoubleScalarMultVartime], used by [Verify] only, shows its scalars: the
    first branch is bit 0 of the first one. *)
Lemma vartime_first a A b : nth_error (fst (GeDoubleScalarMultVartime_l a A b)) 256 = Some (Branch (Z.eqb (scalarBit a 0) 0)).
Proof.
  unfold GeDoubleScalarMultVartime_l. unfold bnd at 1. cbn [fst]. unfold slide_l. unfold bnd at 1. cbn [fst].
  assert (Q : forall l, List.length (fst (loop (fun (_ : unit) i => obs (Index "a" (Nat.div i 8))) l tt)) = List.length l).
  { induction l as [|i l IH]; [reflexivity|]. cbn [loop]. unfold bnd. cbn [fst obs snd app List.length]. rewrite IH. reflexivity. }
  rewrite <- !app_assoc. rewrite nth_error_app2 by (rewrite Q, seq_length; lia). rewrite Q, seq_length. cbn [Nat.sub].
  change 256%nat with (S 255) at 1. cbn [seq map slide_loop_l]. unfold bnd at 1. cbn [fst]. unfold branch. unfold bnd at 1. cbn [fst obs app]. reflexivity.
Qed.
Theorem C89_vartime_refuted :
  (forall a A b, snd (GeDoubleScalarMultVartime_l a A b) = GeDoubleScalarMultVartime a A b) /\
  forall A b, exists a a', List.length a = 32%nat /\ List.length a' = 32%nat /\
    fst (GeDoubleScalarMultVartime_l a A b) <> fst (GeDoubleScalarMultVartime_l a' A b).
Proof.
  split; [exact GeDoubleScalarMultVartime_l_val|]. intros A b. exists (repeat x00 32), (x01 :: repeat x00 31). split; [reflexivity|]. split; [reflexivity|].
  intro E. pose proof (vartime_first (repeat x00 32) A b) as F. rewrite E, vartime_first in F. vm_compute in F. discriminate F.
Qed.

(** The name itself is not protected: hashing it to the curve branches on the
    sign, so that two names of one length can be told apart. *)
Definition xofN (m : bytes) (n : nat) : bytes :=
  if Nat.eqb n 32 then repeat x00 31 ++ [match m with [x02] => x80 | _ => x00 end] else repeat x00 n.
Lemma xofN_len m n : List.length (xofN m n) = n.
Proof. unfold xofN. destruct (Nat.eqb_spec n 32) as [->|]; [rewrite app_length, repeat_length; reflexivity|apply repeat_length]. Qed.
Definition diverge {A B} (m : leaky A) (m' : leaky B) : Prop :=
  exists p b r r', fst m = (p ++ Branch b :: r)%list /\ fst m' = (p ++ Branch (negb b) :: r')%list.
Lemma diverge_ne {A B} (m : leaky A) (m' : leaky B) : diverge m m' -> fst m <> fst m'.
Proof. intros (p & b & r & r' & -> & ->) E. apply app_inv_head in E. injection E as E _. destruct b; discriminate E. Qed.
Lemma diverge_bnd {A B A' B'} (m : leaky A) (m' : leaky A') (k : A -> leaky B) (k' : A' -> leaky B') : diverge m m' -> diverge (bnd m k) (bnd m' k').
Proof.
  intros (p & b & r & r' & E & E'). exists p, b, (r ++ fst (k (snd m)))%list, (r' ++ fst (k' (snd m')))%list. unfold bnd. cbn [fst]. rewrite E, E', <- !app_assoc. split; reflexivity.
Qed.
Lemma diverge_cont {A B A' B'} (m : leaky A) (m' : leaky A') (k : A -> leaky B) (k' : A' -> leaky B') :
  same m m' -> diverge (k (snd m)) (k' (snd m')) -> diverge (bnd m k) (bnd m' k').
Proof.
  unfold same. intros S0 (p & b & r & r' & E & E'). exists (fst m ++ p)%list, b, r, r'. unfold bnd. cbn [fst]. rewrite E, E', S0, <- !app_assoc. split; reflexivity.
Qed.
Lemma diverge_if {A D B'} (m : leaky A) (k : A -> leaky (bool * D)) (k' : A -> leaky B') :
  fst (snd (bnd m k)) = true -> (forall a, fst (snd (k a)) = true -> diverge (k a) (k' a)) -> diverge (bnd m k) (bnd m k').
Proof. intros T H. apply diverge_cont; [apply same_refl|]. apply H. exact T. Qed.
Lemma finish_diverge y X : diverge (finish_l 0 y X) (finish_l 1 y X).
Proof.
  unfold finish_l. apply diverge_cont; [apply same_refl|]. change (snd (call "FeIsNegative" (FeIsNegative X))) with (FeIsNegative X).
  assert (N : Z.eqb (fst (FeIsNegative X)) 1 = negb (Z.eqb (fst (FeIsNegative X)) 0)).
  { unfold FeIsNegative. destruct (FeToBytes X) as [s f]. cbn [fst].
    assert (C : Z.land (byteZ (nth 0 s x00)) 1 = 0 \/ Z.land (byteZ (nth 0 s x00)) 1 = 1).
    { change 1 with (Z.ones 1) at 1 2. rewrite Z.land_ones by lia. pose proof (Z.mod_pos_bound (byteZ (nth 0 s x00)) (2 ^ 1) ltac:(lia)). lia. }
    destruct C as [-> | ->]; reflexivity. }
  apply diverge_bnd. unfold branch. rewrite N. set (b := Z.eqb (fst (FeIsNegative X)) 0). clearbody b.
  exists [], b, (fst (if b then ret (snd (FeIsNegative X)) else call "FeNeg" (FeNeg (snd (FeIsNegative X))))), (fst (if negb b then ret (snd (FeIsNegative X)) else call "FeNeg" (FeNeg (snd (FeIsNegative X))))).
  unfold bnd. cbn [fst obs app snd]. split; reflexivity.
Qed.
Lemma parity_diverge T0 y : fst (snd (FromParityAndY_l T0 0 y)) = true -> diverge (FromParityAndY_l T0 0 y) (FromParityAndY_l T0 1 y).
Proof.
  unfold FromParityAndY_l. intro T. revert T.
  do 16 (intro T; apply diverge_if; [exact T|]; clear T; intro).
  cbv beta. rewrite snd_branch. unfold branch. destruct (Z.eqb _ 1).
  2: { intros _. apply diverge_cont; [apply same_refl|]. apply finish_diverge. }
  intro T. apply diverge_cont; [apply same_refl|]. cbv beta iota. revert T.
  do 2 (intro T; apply diverge_if; [exact T|]; clear T; intro).
  cbv beta. intro T. match type of T with context [Branch ?b] => destruct b end.
  { discriminate T. }
  apply diverge_cont; [apply same_refl|]. cbv beta iota.
  do 2 (apply diverge_cont; [apply same_refl|]). apply finish_diverge.
Qed.
Lemma snd_call {A} f (a : A) : snd (call f a) = a.
Proof. reflexivity. Qed.
Lemma hash_parts T0 h p (b := nth 31 h x00) : HashToEdwards T0 h = Some p ->
  fst (FromParityAndY T0 (Z.shiftr (byteZ b) 7) (montgomeryXToEdwardsY (representativeToMontgomeryX (FeFromBytes (firstn 31 h ++ [toByte (Z.land (byteZ b) 127)])%list)))) = true.
Proof.
  unfold HashToEdwards. cbv zeta. fold b. destruct (FromParityAndY _ _ _) as [[] o]; [reflexivity|discriminate].
Qed.
Lemma hash_diverge T0 h0 h1 p : firstn 31 h0 = firstn 31 h1 -> nth 31 h0 x00 = x00 -> nth 31 h1 x00 = x80 ->
  HashToEdwards T0 h0 = Some p -> diverge (HashToEdwards_l T0 h0) (HashToEdwards_l T0 h1).
Proof.
  intros F N0 N1 H. apply hash_parts in H. rewrite N0 in H.
  unfold HashToEdwards_l. apply diverge_cont; [reflexivity|].
  change (snd (index "h" h0 31 x00)) with (nth 31 h0 x00). change (snd (index "h" h1 31 x00)) with (nth 31 h1 x00).
  rewrite N0, N1, <- F.
  change (toByte (Z.land (byteZ x80) 127)) with x00. change (toByte (Z.land (byteZ x00) 127)) with x00 in H |- *.
  change (Z.shiftr (byteZ x80) 7) with 1. change (Z.shiftr (byteZ x00) 7) with 0 in H |- *. cbv zeta.
  generalize dependent (firstn 31 h0 ++ [x00])%list. intros l H.
  apply diverge_cont; [apply same_refl|]. rewrite !snd_call.
  apply diverge_cont; [apply same_refl|]. rewrite !snd_call.
  apply diverge_cont; [apply same_refl|]. rewrite !snd_call.
  apply diverge_bnd. apply parity_diverge. rewrite FromParityAndY_l_val. exact H.
Qed.
Theorem C89_names_refuted : exists xof, (forall m n, List.length (xof m n) = n) /\
  exists m m', List.length m = List.length m' /\ forall sk, fst (Prove_l xof sk m) <> fst (Prove_l xof sk m').
Proof.
  exists xofN. split; [exact xofN_len|]. exists [x01], [x02]. split; [reflexivity|]. intro sk. apply diverge_ne.
  unfold Prove_l. apply diverge_cont; [apply same_refl|]. apply diverge_bnd. unfold hashToCurve_l.
  apply diverge_cont; [reflexivity|]. apply diverge_bnd.
  destruct (HashToEdwards_ok FeZero (xofN [x01] 32%nat) (xofN_len _ _)) as (p & P & H & _).
  exact (hash_diverge FeZero (xofN [x01] 32%nat) (xofN [x02] 32%nat) p eq_refl eq_refl eq_refl H).
Qed.
(** Not vacuous: two keys whose secret scalars differ, and table digits that
    select different points, leave one trace; the trace is not empty. *)
Definition xofM (m : bytes) (n : nat) : bytes := firstn n (m ++ repeat x00 n)%list.
Lemma xofM_len m n : List.length (xofM m n) = n.
Proof. unfold xofM. rewrite firstn_length, app_length, repeat_length. lia. Qed.
Definition keyA : bytes := (repeat x08 32 ++ repeat x01 32)%list.
Definition keyB : bytes := (repeat x10 32 ++ repeat x02 32)%list.
Example C89_example :
  List.length keyA = 64%nat /\ List.length keyB = 64%nat /\ fst (expandSecret xofM keyA) <> fst (expandSecret xofM keyB) /\
  fst (Prove_l xofM keyA [x01]) = fst (Prove_l xofM keyB [x01]) /\ fst (Prove_l xofM keyA [x01]) <> [].
Proof.
  split; [reflexivity|]. split; [reflexivity|]. split; [intro E; vm_compute in E; discriminate E|].
  split; [apply (C89_prove xofM xofM_len); reflexivity|].
  unfold Prove_l. unfold bnd at 1. cbn [fst]. unfold expandSecret_l. intro E. apply app_eq_nil in E. destruct E as [E _]. discriminate E.
Qed.
Print Assumptions C89_prove.
Print Assumptions C89_compute.
Print Assumptions C89_generate.
Print Assumptions C89_scalar_mult.
Print Assumptions C89_scalar_mult_base.
Print Assumptions C89_straight_line.
Print Assumptions C89_vartime_refuted.
Print Assumptions C89_names_refuted.
