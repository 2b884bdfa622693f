(** [GeScalarMultBase] and [GeDoubleScalarMultVartime] multiply. *)
From Coq Require Import List NArith ZArith Lia Bool Arith Znumtheory.
From Verif Require Import Base Extra25519 GoInt Field FieldSpec FieldFacts FieldBytes EdConst Group NumTheory Fp EdGroup EdOrder Scalar GroupFacts EncFacts MulFacts BaseFacts.
Import ListNotations.
Local Open Scope Z_scope.

(** ** Constant-time selection *)
Lemma forall_range lo n (P : Z -> bool) : forallb (fun k => P (lo + Z.of_nat k)) (seq 0 n) = true ->
  forall z, lo <= z < lo + Z.of_nat n -> P z = true.
Proof.
  rewrite forallb_forall. intros H z Hz. specialize (H (Z.to_nat (z - lo))).
  rewrite Z2Nat.id in H by lia. replace (lo + (z - lo)) with z in H by lia. apply H, in_seq. lia.
Qed.
Lemma equal_ok c k : 0 <= c <= 8 -> 0 <= k < 8 -> equal c (k + 1) = if Z.eqb c (k + 1) then 1 else 0.
Proof.
  intros C K. apply Z.eqb_eq.
  apply (forall_range 0 8 (fun k => Z.eqb (equal c (k + 1)) (if Z.eqb c (k + 1) then 1 else 0))); [|lia].
  apply (forall_range 0 9 (fun c => forallb (fun k => Z.eqb (equal c (0 + Z.of_nat k + 1)) (if Z.eqb c (0 + Z.of_nat k + 1) then 1 else 0)) (seq 0 8))); [|lia].
  vm_compute. reflexivity.
Qed.
Lemma negative_ok b : -8 <= b <= 8 -> negative b = Z.b2z (Z.ltb b 0) /\
  wrap I32 (b - wrap I32 (Z.shiftl (Z.land (wrap I32 (- negative b)) b) 1)) = Z.abs b.
Proof.
  intro H.
  assert (K : (Z.eqb (negative b) (Z.b2z (Z.ltb b 0)) && Z.eqb (wrap I32 (b - wrap I32 (Z.shiftl (Z.land (wrap I32 (- negative b)) b) 1))) (Z.abs b)) = true).
  { apply (forall_range (-8) 17 (fun b => Z.eqb (negative b) (Z.b2z (Z.ltb b 0)) && Z.eqb (wrap I32 (b - wrap I32 (Z.shiftl (Z.land (wrap I32 (- negative b)) b) 1))) (Z.abs b))); [|lia].
    vm_compute. reflexivity. }
  apply andb_true_iff in K. rewrite !Z.eqb_eq in K. exact K.
Qed.
Lemma pre_CMove_ok t u b P Q : pre_ok t P -> pre_ok u Q -> pre_ok (pre_CMove t u (Z.b2z b)) (if b then Q else P).
Proof.
  intros T U. pose proof T as (A1 & A2 & A3). pose proof U as (B1 & B2 & B3).
  unfold pre_CMove. rewrite !FeCMove_ok by (try (eapply fr_length; eassumption); destruct b; cbn [Z.b2z]; lia).
  destruct b; cbn [Z.b2z Z.eqb Pos.eqb]; [destruct u|destruct t]; assumption.
Qed.
Lemma pre_neg_ok t P : pre_ok t P -> pre_ok (mkPre (yMinusX t) (yPlusX t) (FeNeg (xy2d t))) (popp P).
Proof.
  intros (A & B & C). pose proof (fr_neg _ _ _ C ltac:(lia)) as D. unfold pre_ok. cbn [yPlusX yMinusX xy2d px py popp mkP].
  split; [frm B|]. split; [frm A|]. frm D.
Qed.
Lemma selectPoint_ok row P b : length row = 8%nat -> (forall j, (j < 8)%nat -> pre_ok (nth j row pre_dummy) (smul (Z.of_nat j + 1) P)) ->
  -8 <= b <= 8 -> pre_ok (selectPoint row b) (smul b P).
Proof.
  intros L R Hb. unfold selectPoint. cbv zeta. destruct (negative_ok b Hb) as [N A]. rewrite A, N.
  assert (K : forall n, (n <= 8)%nat ->
    pre_ok (fold_left (fun t i => pre_CMove t (nth i row pre_dummy) (equal (Z.abs b) (Z.of_nat i + 1))) (seq 0 n) pre_Zero)
      (smul (if Z.leb (Z.abs b) (Z.of_nat n) then Z.abs b else 0) P)).
  { induction n as [|n IH]; intro Hn.
    - cbn [seq fold_left]. change (Z.of_nat 0) with 0. destruct (Z.leb_spec (Z.abs b) 0) as [Z|Z]; [replace (Z.abs b) with 0 by lia|]; rewrite smul_0; apply pre_zero_ok.
    - rewrite seq_S, fold_left_app. cbn [plus fold_left]. set (t := fold_left _ _ _) in *. clearbody t.
      rewrite equal_ok by lia. specialize (IH ltac:(lia)).
      pose proof (pre_CMove_ok t (nth n row pre_dummy) (Z.eqb (Z.abs b) (Z.of_nat n + 1)) _ _ IH (R n ltac:(lia))) as Q.
      rewrite Nat2Z.inj_succ. unfold Z.succ.
      destruct (Z.eqb_spec (Z.abs b) (Z.of_nat n + 1)) as [E|E]; cbn [Z.b2z] in Q.
      + destruct (Z.leb_spec (Z.abs b) (Z.of_nat n + 1)); [|lia]. rewrite E. exact Q.
      + destruct (Z.leb_spec (Z.abs b) (Z.of_nat n)), (Z.leb_spec (Z.abs b) (Z.of_nat n + 1)); try lia; exact Q. }
  specialize (K 8%nat ltac:(lia)). set (t := fold_left _ _ _) in *. clearbody t.
  destruct (Z.leb_spec (Z.abs b) (Z.of_nat 8)); [|lia].
  pose proof (pre_CMove_ok _ _ (Z.ltb b 0) _ _ K (pre_neg_ok _ _ K)) as Q.
  destruct (Z.ltb_spec b 0) as [S|S].
  - rewrite <- smul_opp in Q. replace (- Z.abs b) with b in Q by lia. exact Q.
  - replace (Z.abs b) with b in Q at 3 by lia. replace (Z.abs b) with b in Q by lia. exact Q.
Qed.

(** ** Signed four-bit digits *)
Fixpoint v16 (e : list Z) : Z := match e with [] => 0 | x :: e' => x + 16 * v16 e' end.
Lemma nibble_lo v : Z.land (byteZ v) 15 = byteZ v mod 16.
Proof. change 15 with (Z.ones 4). now rewrite Z.land_ones by lia. Qed.
Lemma nibble_hi v : Z.land (Z.shiftr (byteZ v) 4) 15 = byteZ v / 16.
Proof.
  change 15 with (Z.ones 4). rewrite Z.land_ones, Z.shiftr_div_pow2 by lia. change (2 ^ 4) with 16.
  pose proof (byteZ_bound v). apply Z.mod_small. split; [apply Z.div_pos; lia|apply Z.div_lt_upper_bound; lia].
Qed.
Lemma nibbles_v16 a : v16 (nibbles a) = le_value a.
Proof.
  induction a as [|v a IH]; [reflexivity|]. unfold nibbles in *. cbn [flat_map app v16 le_value]. rewrite IH, nibble_lo, nibble_hi.
  pose proof (Z.div_mod (byteZ v) 16 ltac:(lia)). lia.
Qed.
Lemma nibbles_length a : length (nibbles a) = (2 * length a)%nat.
Proof. induction a as [|v a IH]; [reflexivity|]. unfold nibbles in *. cbn [flat_map app length]. rewrite IH. lia. Qed.
Lemma nibbles_range a : Forall (fun x => 0 <= x <= 15) (nibbles a).
Proof.
  induction a as [|v a IH]; [constructor|]. unfold nibbles in *. cbn [flat_map app]. rewrite nibble_lo, nibble_hi. pose proof (byteZ_bound v).
  constructor; [pose proof (Z.mod_pos_bound (byteZ v) 16); lia|]. constructor; [|exact IH].
  split; [apply Z.div_pos; lia|]. apply Z.lt_succ_r. apply Z.div_lt_upper_bound; lia.
Qed.
Lemma recode_digit x : 0 <= x <= 16 -> let c := Z.shiftr (wrapI8 (x + 8)) 4 in
  0 <= c <= 1 /\ wrapI8 (x - wrapI8 (Z.shiftl c 4)) = x - 16 * c /\ -8 <= x - 16 * c <= 8.
Proof.
  intro H.
  assert (K : (let c := Z.shiftr (wrapI8 (x + 8)) 4 in Z.leb 0 c && Z.leb c 1 && Z.eqb (wrapI8 (x - wrapI8 (Z.shiftl c 4))) (x - 16 * c) && Z.leb (-8) (x - 16 * c) && Z.leb (x - 16 * c) 8) = true).
  { apply (forall_range 0 17 (fun x => let c := Z.shiftr (wrapI8 (x + 8)) 4 in Z.leb 0 c && Z.leb c 1 && Z.eqb (wrapI8 (x - wrapI8 (Z.shiftl c 4))) (x - 16 * c) && Z.leb (-8) (x - 16 * c) && Z.leb (x - 16 * c) 8)); [|lia].
    vm_compute. reflexivity. }
  cbv zeta in *. rewrite !andb_true_iff, !Z.leb_le, Z.eqb_eq in K. tauto.
Qed.
Lemma recode_ok e : forall c, 0 <= c <= 1 -> Forall (fun x => 0 <= x <= 15) e -> (e <> [] -> last e 0 <= 7) ->
  length (recode c e) = length e /\ (e <> [] -> v16 (recode c e) = v16 e + c) /\ Forall (fun x => -8 <= x <= 8) (recode c e).
Proof.
  induction e as [|x e IH]; intros c Hc F La; [repeat split; [congruence|constructor]|].
  inversion F as [|? ? Hx Fe]; subst. destruct e as [|y e].
  - cbn [recode length v16]. specialize (La ltac:(discriminate)). cbn [last] in La.
    rewrite wrapI8_small by lia. repeat split; [lia|]. constructor; [lia|constructor].
  - change (recode c (x :: y :: e)) with (let x := wrapI8 (x + c) in let carry := Z.shiftr (wrapI8 (x + 8)) 4 in wrapI8 (x - wrapI8 (Z.shiftl carry 4)) :: recode carry (y :: e)).
    cbv zeta. rewrite (wrapI8_small (x + c)) by lia. destruct (recode_digit (x + c) ltac:(lia)) as (C1 & C2 & C3). cbv zeta in C1, C2, C3.
    rewrite C2. set (c' := Z.shiftr (wrapI8 (x + c + 8)) 4) in *. clearbody c'.
    destruct (IH c' C1 Fe) as (I1 & I2 & I3).
    { intros _. apply La. discriminate. }
    specialize (I2 ltac:(discriminate)).
    split; [cbn [length] in *; lia|]. split; [intros _|constructor; [lia|exact I3]].
    change (v16 (x + c - 16 * c' :: recode c' (y :: e))) with (x + c - 16 * c' + 16 * v16 (recode c' (y :: e))).
    change (v16 (x :: y :: e)) with (x + 16 * v16 (y :: e)). lia.
Qed.
(** the digits of even and of odd position *)
Fixpoint sum256 (e : list Z) (n o : nat) : Z :=
  match n with O => 0 | S n' => sum256 e n' o + nth (2 * n' + o) e 0 * 256 ^ Z.of_nat n' end.
Lemma sum256_shift x y e o n : sum256 (x :: y :: e) (S n) o = nth o (x :: y :: e) 0 + 256 * sum256 e n o.
Proof.
  induction n as [|n IH]; [cbn [sum256]; change (256 ^ Z.of_nat 0) with 1; cbn [plus Nat.mul]; lia|].
  change (sum256 (x :: y :: e) (S (S n)) o) with (sum256 (x :: y :: e) (S n) o + nth (2 * S n + o) (x :: y :: e) 0 * 256 ^ Z.of_nat (S n)).
  rewrite IH. change (sum256 e (S n) o) with (sum256 e n o + nth (2 * n + o) e 0 * 256 ^ Z.of_nat n).
  replace (2 * S n + o)%nat with (S (S (2 * n + o))) by lia. change (nth (S (S (2 * n + o))) (x :: y :: e) 0) with (nth (2 * n + o) e 0).
  rewrite Nat2Z.inj_succ, Z.pow_succ_r by lia. lia.
Qed.
Lemma sum256_v16 n : forall e, length e = (2 * n)%nat -> sum256 e n 0 + 16 * sum256 e n 1 = v16 e.
Proof.
  induction n as [|n IH]; intros e L; [destruct e; [reflexivity|discriminate L]|].
  destruct e as [|x [|y e]]; [discriminate L|cbn [length] in L; lia|]. rewrite !sum256_shift. cbn [nth v16].
  assert (L' : length e = (2 * n)%nat) by (cbn [length] in L; lia). rewrite <- (IH e L'). lia.
Qed.
Lemma smb_add_ok e h m i : length e = 64%nat -> Forall (fun x => -8 <= x <= 8) e -> (i < 64)%nat -> ext_ok h (smul m pB) ->
  ext_ok (smb_add e h i) (smul (m + nth i e 0 * 256 ^ Z.of_nat (i / 2)) pB).
Proof.
  intros L F Hi H. unfold smb_add. apply comp_to_ext. rewrite smul_add. apply geMixedAdd_ok; [exact H|].
  assert (I2 : (i / 2 < 32)%nat) by (apply Nat.div_lt_upper_bound; lia).
  destruct (base_ok (i / 2) I2) as [Lr R]. rewrite smul_mul. apply selectPoint_ok; [exact Lr| |].
  - intros j Hj. rewrite <- smul_mul. now apply R.
  - rewrite Forall_forall in F. apply F. apply nth_In. lia.
Qed.
Lemma smb_fold_ok e o n h m : length e = 64%nat -> Forall (fun x => -8 <= x <= 8) e -> (n <= 32)%nat -> (o <= 1)%nat -> ext_ok h (smul m pB) ->
  ext_ok (fold_left (smb_add e) (map (fun k => (2 * k + o)%nat) (seq 0 n)) h) (smul (m + sum256 e n o) pB).
Proof.
  intros L F Hn Ho H. induction n as [|n IH]; [cbn [seq map fold_left sum256]; now rewrite Z.add_0_r|].
  rewrite seq_S, map_app, fold_left_app. cbn [plus map fold_left sum256]. specialize (IH ltac:(lia)). set (g := fold_left _ _ _) in *. clearbody g.
  pose proof (smb_add_ok e g _ (2 * n + o) L F ltac:(lia) IH) as R.
  replace ((2 * n + o) / 2)%nat with n in R; [rewrite <- Z.add_assoc in R; exact R|].
  rewrite Nat.mul_comm, Nat.div_add_l by lia. destruct o as [|[|]]; [rewrite Nat.div_0_l by lia|cbn [Nat.div Nat.divmod fst]|]; lia.
Qed.
Lemma last_nibble a : length a = 32%nat -> last (nibbles a) 0 = byteZ (nth 31 a x00) / 16.
Proof.
  intro L. rewrite (split31 a L) at 1. unfold nibbles. rewrite flat_map_app. cbn [flat_map app]. rewrite nibble_hi.
  change [Z.land (byteZ (nth 31 a x00)) 15; byteZ (nth 31 a x00) / 16] with ([Z.land (byteZ (nth 31 a x00)) 15] ++ [byteZ (nth 31 a x00) / 16]).
  rewrite app_assoc. apply last_last.
Qed.
(** Documented precondition: [a[31] <= 127] *)
Lemma GeScalarMultBase_ok a : length a = 32%nat -> le_value a < 2 ^ 255 -> ext_ok (GeScalarMultBase a) (smul (le_value a) pB).
Proof.
  intros L V. destruct (value31 a L) as [E R].
  assert (T : byteZ (nth 31 a x00) < 128) by lia. pose proof (byteZ_bound (nth 31 a x00)) as T0.
  destruct (recode_ok (nibbles a) 0 ltac:(lia) (nibbles_range a)) as (Le & Ve & Fe).
  { intros _. rewrite (last_nibble a L). apply Z.lt_succ_r. apply Z.div_lt_upper_bound; lia. }
  rewrite nibbles_length, L in Le. rewrite nibbles_v16, Z.add_0_r in Ve.
  specialize (Ve ltac:(intro H; apply (f_equal (@length Z)) in H; rewrite nibbles_length, L in H; discriminate H)).
  unfold GeScalarMultBase. set (e := recode 0 (nibbles a)) in *. clearbody e. cbv zeta.
  pose proof (smb_fold_ok e 1 32 ext_Zero 0 Le Fe ltac:(lia) ltac:(lia)) as H1. rewrite smul_0 in H1. specialize (H1 ext_zero_ok).
  rewrite Z.add_0_l in H1. set (h := fold_left (smb_add e) (map (fun k => (2 * k + 1)%nat) (seq 0 32)) ext_Zero) in *. clearbody h.
  set (s := sum256 e 32 1) in *.
  assert (Dbl : forall n P, padd (smul n P) (smul n P) = smul (2 * n) P) by (intros n P; rewrite <- smul_add; f_equal; lia).
  pose proof (ext_double_ok _ _ H1) as H2. rewrite Dbl in H2.
  pose proof (proj_double_ok _ _ (comp_to_proj _ _ H2)) as H3. rewrite Dbl in H3.
  pose proof (proj_double_ok _ _ (comp_to_proj _ _ H3)) as H4. rewrite Dbl in H4.
  pose proof (proj_double_ok _ _ (comp_to_proj _ _ H4)) as H5. rewrite Dbl in H5.
  pose proof (comp_to_ext _ _ H5) as H6. set (g := comp_ToExtended _) in *. clearbody g.
  pose proof (smb_fold_ok e 0 32 g _ Le Fe ltac:(lia) ltac:(lia) H6) as H7.
  replace (map (fun k => (2 * k)%nat) (seq 0 32)) with (map (fun k => (2 * k + 0)%nat) (seq 0 32)) by (apply map_ext; intro; lia).
  replace (le_value a) with (2 * (2 * (2 * (2 * s))) + sum256 e 32 0); [exact H7|].
  rewrite <- Ve, <- (sum256_v16 32 e Le). unfold s. lia.
Qed.

(** ** Two scalars at once *)
Lemma table_from_ok A2 P : ext_ok A2 (padd P P) -> forall n c k, cached_ok c (smul k P) ->
  forall j, (j <= n)%nat -> cached_ok (nth j (table_from A2 n c) ca_dummy) (smul (k + 2 * Z.of_nat j) P).
Proof.
  intro H2. induction n as [|n IH]; intros c k C j Hj; cbn [table_from].
  - replace j with 0%nat by lia. cbn [nth]. change (Z.of_nat 0) with 0. rewrite Z.mul_0_r, Z.add_0_r. exact C.
  - destruct j as [|j]; cbn [nth]; [change (Z.of_nat 0) with 0; rewrite Z.mul_0_r, Z.add_0_r; exact C|].
    replace (k + 2 * Z.of_nat (S j)) with ((2 + k) + 2 * Z.of_nat j) by lia. apply IH; [|lia].
    apply ext_to_cached, comp_to_ext. rewrite smul_add, smul_2. now apply geAdd_ok.
Qed.
Lemma cached_table_ok A P j : ext_ok A P -> (j < 8)%nat -> cached_ok (nth j (cached_table A) ca_dummy) (smul (1 + 2 * Z.of_nat j) P).
Proof.
  intros H Hj. unfold cached_table. apply (table_from_ok _ P); [apply comp_to_ext; now apply ext_double_ok| |lia].
  rewrite smul_1. now apply ext_to_cached.
Qed.
Definition dsm_sem (P : point) (R : point) (ab : Z * Z) : point :=
  padd (padd (padd R R) (smul (fst ab) P)) (smul (snd ab) pB).
Lemma digit_index x : digit x -> 0 < x -> (Z.to_nat (Z.quot x 2) < 8)%nat /\ 1 + 2 * Z.of_nat (Z.to_nat (Z.quot x 2)) = x.
Proof.
  intros [->|[O R]] P; [lia|]. rewrite Z.quot_div_nonneg by lia. pose proof (Z.div_mod x 2 ltac:(lia)) as D.
  rewrite Zmod_odd, O in D. pose proof (Z.div_pos x 2 ltac:(lia) ltac:(lia)). lia.
Qed.
Lemma digit_opp x : digit x -> digit (- x).
Proof. intros [->|[O R]]; [now left|right]. rewrite Z.odd_opp. split; [exact O|lia]. Qed.
Lemma dsm_round_ok A P r R ab : ext_ok A P -> digit (fst ab) -> digit (snd ab) -> proj_ok r R ->
  proj_ok (dsm_round (cached_table A) r ab) (dsm_sem P R ab).
Proof.
  intros HA Dx Dy H. destruct ab as [x y]. cbn [fst snd] in *. unfold dsm_round, dsm_sem. cbv zeta. cbn [fst snd].
  apply comp_to_proj. pose proof (proj_double_ok _ _ H) as H2. set (t := proj_Double r) in *. clearbody t.
  assert (H3 : comp_ok (if Z.ltb 0 x then geAdd (comp_ToExtended t) (nth (Z.to_nat (Z.quot x 2)) (cached_table A) ca_dummy)
    else if Z.ltb x 0 then geSub (comp_ToExtended t) (nth (Z.to_nat (Z.quot (- x) 2)) (cached_table A) ca_dummy) else t) (padd (padd R R) (smul x P))).
  { destruct (Z.ltb_spec 0 x) as [S|S].
    - destruct (digit_index x Dx S) as [I V]. apply geAdd_ok; [now apply comp_to_ext|]. rewrite <- V at 2. now apply cached_table_ok.
    - destruct (Z.ltb_spec x 0) as [S'|S'].
      + destruct (digit_index (- x) (digit_opp x Dx) ltac:(lia)) as [I V].
        replace (smul x P) with (popp (smul (- x) P)) by (rewrite <- smul_opp; f_equal; lia).
        apply geSub_ok; [now apply comp_to_ext|]. rewrite <- V at 2. now apply cached_table_ok.
      + replace x with 0 by lia. rewrite smul_0, padd_O_r. exact H2. }
  set (t' := if Z.ltb 0 x then _ else _) in *. clearbody t'. set (Q := padd (padd R R) (smul x P)) in *. clearbody Q.
  destruct (Z.ltb_spec 0 y) as [S|S].
  - destruct (digit_index y Dy S) as [I V]. apply geMixedAdd_ok; [now apply comp_to_ext|]. rewrite <- V at 2. now apply bi_ok.
  - destruct (Z.ltb_spec y 0) as [S'|S'].
    + destruct (digit_index (- y) (digit_opp y Dy) ltac:(lia)) as [I V].
      replace (smul y pB) with (popp (smul (- y) pB)) by (rewrite <- smul_opp; f_equal; lia).
      apply geMixedSub_ok; [now apply comp_to_ext|]. rewrite <- V at 2. now apply bi_ok.
    + replace y with 0 by lia. rewrite smul_0, padd_O_r. exact H3.
Qed.
Lemma dsm_fold_ok A P l : ext_ok A P -> Forall (fun ab => digit (fst ab) /\ digit (snd ab)) l -> forall r R, proj_ok r R ->
  proj_ok (fold_left (dsm_round (cached_table A)) l r) (fold_left (dsm_sem P) l R).
Proof.
  intros HA F. induction F as [|ab l [D1 D2] _ IH]; intros r R H; [exact H|]. cbn [fold_left]. apply IH. now apply dsm_round_ok.
Qed.
Lemma skip_zeros_sem P l : fold_left (dsm_sem P) (skip_zeros l) pO = fold_left (dsm_sem P) l pO.
Proof.
  induction l as [|[x y] l IH]; [reflexivity|]. cbn [skip_zeros].
  destruct (Z.eqb_spec x 0) as [->|X]; cbn [negb orb]; [|reflexivity].
  destruct (Z.eqb_spec y 0) as [->|Y]; cbn [negb orb]; [|reflexivity].
  rewrite IH. cbn [fold_left]. unfold dsm_sem at 3. cbn [fst snd]. now rewrite !smul_0, !padd_O_r.
Qed.
Lemma skip_zeros_incl l : incl (skip_zeros l) l.
Proof.
  induction l as [|[x y] l IH]; [apply incl_refl|]. cbn [skip_zeros]. destruct (_ || _); [apply incl_refl|]. now apply incl_tl.
Qed.
Lemma dsm_sem_value P a : forall b, length a = length b ->
  fold_left (dsm_sem P) (rev (combine a b)) pO = padd (smul (dv a) P) (smul (dv b) pB).
Proof.
  induction a as [|x a IH]; intros [|y b] L; try discriminate L.
  - cbn [combine rev fold_left dv]. rewrite !smul_0. now rewrite padd_O_l.
  - cbn [combine rev dv]. rewrite fold_left_app, IH by (injection L as L; exact L). cbn [fold_left]. unfold dsm_sem. cbn [fst snd].
    rewrite (Z.add_comm x), (Z.add_comm y), !smul_add.
    replace (2 * dv a) with (dv a + dv a) by lia. replace (2 * dv b) with (dv b + dv b) by lia. rewrite !smul_add.
    set (U := smul (dv a) P). set (V := smul (dv b) pB). set (X := smul x P). set (Y := smul y pB).
    rewrite (padd_swap U V U V). set (UU := padd U U). set (VV := padd V V).
    rewrite (padd_assoc (padd UU X)). f_equal. rewrite <- !padd_assoc. f_equal. apply padd_comm.
Qed.
(** For all scalars: the sum of the digits *)
Lemma DSM_digits a A P b : ext_ok A P -> proj_ok (GeDoubleScalarMultVartime a A b) (padd (smul (dv (slide a)) P) (smul (dv (slide b)) pB)).
Proof.
  intro HA. unfold GeDoubleScalarMultVartime. cbv zeta.
  destruct (slide_digits a) as [Fa La], (slide_digits b) as [Fb Lb].
  rewrite <- (dsm_sem_value P (slide a) (slide b)) by congruence. rewrite <- skip_zeros_sem.
  apply dsm_fold_ok; [exact HA| |apply proj_zero_ok].
  apply Forall_forall. intros [x y] H. apply skip_zeros_incl, in_rev in H. cbn [fst snd].
  rewrite Forall_forall in Fa, Fb. split; [apply Fa; eapply in_combine_l; exact H|apply Fb; eapply in_combine_r; exact H].
Qed.
(** and for scalars up to 2^255: the scalars themselves *)
Lemma DSM_ok a A P b : length a = 32%nat -> length b = 32%nat -> le_value a < 2 ^ 255 + 15 -> le_value b < 2 ^ 255 + 15 -> ext_ok A P ->
  proj_ok (GeDoubleScalarMultVartime a A b) (padd (smul (le_value a) P) (smul (le_value b) pB)).
Proof.
  intros La Lb Va Vb HA. pose proof (DSM_digits a A P b HA) as H. now rewrite (slide_value a La Va), (slide_value b Lb Vb) in H.
Qed.
