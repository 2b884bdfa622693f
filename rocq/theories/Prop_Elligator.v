(** C74 (conversion of keys), C75 (representatives of Curve25519 keys), C76
    (collisions of the hash to the curve).

    The specification is over the curve group of EdGroup.v: [F2Z]/[Z2F] go between
    the field and the integers below p, [le_value] reads bytes little-endian,
    [encode P] is the 32-byte encoding of a point, [smul n P] is n times P, [pB] the
    base point. *)
From Coq Require Import List NArith ZArith Lia Bool Arith Znumtheory Field.
From Verif Require Import Base Extra25519 GoInt Field FieldSpec FieldFacts FieldBytes FieldPow EdConst Group NumTheory Fp EdGroup EdOrder Scalar GroupFacts EncFacts MulFacts BaseFacts SmulFacts PointFacts EdCyclic VRF VRFSpec VRFFacts Elligator ElligatorFacts.
Import ListNotations.
Local Open Scope Z_scope.
Local Notation nlen := (@length Byte.byte).

(** ** Specification *)
(** [u] is the first coordinate of [P] on Montgomery's form of the curve,
    (1 + y) / (1 - y); zero stands for the point at infinity. *)
Definition montgomery_u (P : point) (u : F) : Prop :=
  (P <> pO /\ (u * (F1 - py P) = F1 + py P)%F) \/ (P = pO /\ u = F0).
(** The bytes of a Curve25519 key: its coordinate as a number below p *)
Definition is_key (pk : bytes) (u : F) : Prop := length pk = 32%nat /\ le_value pk = F2Z u.
(** The scalar of a secret: 2^254 + 8 k, with k the bits 3 to 253 of the string *)
Definition secret_scalar (s : bytes) : Z := 2 ^ 254 + 8 * ((le_value s / 8) mod 2 ^ 251).

Lemma py_O : py pO = F1. Proof. reflexivity. Qed.
Lemma muz_spec P : montgomery_u P (muz P).
Proof.
  destruct (F_dec (F1 - py P)%F F0) as [E|N].
  - right. assert (Y : py P = F1) by (symmetry; apply Fsub_zero; exact E). split; [now apply py_one|now apply muz_O].
  - left. split; [intros ->; apply N; rewrite py_O; ring|now apply muz_eq].
Qed.
Lemma montgomery_unique P u u' : montgomery_u P u -> montgomery_u P u' -> u = u'.
Proof.
  intros [[N H]|[H ->]] [[N' H']|[H' ->]]; try contradiction; [|reflexivity].
  assert (D : (F1 - py P <> F0)%F). { intro Z. apply N, py_one. symmetry. now apply Fsub_zero. }
  apply (Fmul_cancel_r _ _ _ D). rewrite H, H'. reflexivity.
Qed.
Lemma montgomery_muz P u : montgomery_u P u <-> u = muz P.
Proof. split; [intro H; exact (montgomery_unique P _ _ H (muz_spec P))|intros ->; apply muz_spec]. Qed.
Lemma key_unique a b u : is_key a u -> is_key b u -> a = b.
Proof. intros [L V] [L' V']. apply le_value_inj; congruence. Qed.
Lemma key_inj a u u' : is_key a u -> is_key a u' -> u = u'.
Proof. intros [_ V] [_ V']. apply F2Z_inj. congruence. Qed.

(** ** C74 *)
(** Converting a public key succeeds exactly for the strings whose low 255 bits,
    modulo p, are the second coordinate of a point of the curve; the result is the
    key with the first coordinate of that point on Montgomery's form.  The top bit
    is ignored. *)
Theorem C74_public : forall s, nlen s = 32%nat ->
  match PublicKeyToCurve25519 s with
  | Some pk => exists P u, py P = Z2F (le_value s mod 2 ^ 255) /\ montgomery_u P u /\ is_key pk u
  | None => forall P, py P <> Z2F (le_value s mod 2 ^ 255)
  end.
Proof.
  intros s L. destruct (pk_ok s L) as [(P & pk & Y & -> & Lp & V)|[-> N]]; [|exact N].
  exists P, (muz P). split; [exact Y|]. split; [apply muz_spec|split; assumption].
Qed.
(** Every encoded point converts, to its coordinate. *)
Theorem C74_encoded : forall P u, montgomery_u P u -> exists pk, PublicKeyToCurve25519 (encode P) = Some pk /\ is_key pk u.
Proof. intros P u H. apply montgomery_muz in H. subst u. destruct (pk_enc P) as (pk & E & L & V). exists pk. split; [exact E|split; assumption]. Qed.
(** Two encoded keys convert to the same key exactly if the points are equal or
    opposite, or both are among the two points with y = 1 and y = -1. *)
Theorem C74_sign_lost : forall P Q, PublicKeyToCurve25519 (encode P) = PublicKeyToCurve25519 (encode Q) <->
  P = Q \/ P = popp Q \/ ((py P = F1 \/ py P = - F1) /\ (py Q = F1 \/ py Q = - F1))%F.
Proof.
  intros P Q. destruct (pk_enc P) as (k & E & L & V). destruct (pk_enc Q) as (k' & E' & L' & V'). rewrite E, E'.
  assert (S : Some k = Some k' <-> muz P = muz Q).
  { split; intro H; [injection H as <-; apply F2Z_inj; congruence|]. f_equal. apply le_value_inj; congruence. }
  rewrite S. split.
  - intro H. destruct (F_dec (muz P) F0) as [Z|Z].
    + right. right. split; apply muz_zero; [exact Z|rewrite <- H; exact Z].
    + assert (NP : (F1 - py P <> F0)%F) by (intro K; apply Z, muz_O; symmetry; apply Fsub_zero; exact K).
      assert (NQ : (F1 - py Q <> F0)%F) by (intro K; apply Z; rewrite H; apply muz_O; symmetry; apply Fsub_zero; exact K).
      pose proof (muz_inj P Q NP NQ H) as Y. pose proof (onP P) as O. pose proof (onP Q) as O'. rewrite Y in O.
      destruct (same_y _ _ _ O' O) as [X|X]; [left|right; left]; apply point_ext; assumption.
  - intros [->|[->|[HP HQ]]]; [reflexivity|reflexivity|].
    assert (G : forall R, (py R = F1 \/ py R = - F1)%F -> muz R = F0).
    { intros R [Y|Y]; [now apply muz_O|]. unfold muz. rewrite Y. ring. }
    rewrite (G P HP), (G Q HQ). reflexivity.
Qed.
(** The secret half: the clamped first half of the hash of the seed. *)
Theorem C74_private : forall sha512, (forall m, nlen (sha512 m) = 64%nat) -> forall sk,
  nlen (PrivateKeyToCurve25519 sha512 sk) = 32%nat /\
  le_value (PrivateKeyToCurve25519 sha512 sk) = secret_scalar (firstn 32 (sha512 (firstn 32 sk))).
Proof.
  intros h H sk. unfold PrivateKeyToCurve25519. set (x := firstn 32 (h (firstn 32 sk))).
  assert (L : length x = 32%nat) by (unfold x; rewrite firstn_length, H; reflexivity). split; [apply clamp_ok, L|apply clamp_value, L].
Qed.
Lemma sbm_eq sk : ScalarBaseMult sk = sbm_from (GeScalarMultBase (clamp sk)). Proof. unfold ScalarBaseMult. reflexivity. Qed.
Lemma sbm_point sk : nlen sk = 32%nat -> let P := smul (secret_scalar sk) pB in
  P <> pO /\ px P <> F0 /\ (F1 - py P <> F0)%F /\ exists A, ScalarBaseMult sk = sbm_from A /\ ext_ok A P.
Proof.
  intros L P. destruct (clamp_ok sk L) as (Lc & B & D). pose proof (clamp_value sk L) as En. fold (secret_scalar sk) in En. rewrite En in B, D.
  assert (NO : P <> pO). { intro Z. apply (sub_order pB _ B_order) in Z; [|exact B_not_O]. revert Z. apply clamped_nonzero; [exact B|exact D]. }
  split; [exact NO|]. destruct (sub_xy P (sub_smul _ _ B_order) NO) as [PX PY]. split; [exact PX|]. split; [exact PY|].
  exists (GeScalarMultBase (clamp sk)). split; [exact (sbm_eq sk)|]. unfold P. rewrite <- En. apply GeScalarMultBase_ok; [exact Lc|rewrite En; lia].
Qed.
(** The two conversions agree: for an Ed25519 key pair (RFC 8032: the public half
    encodes n B, with n the scalar of the hashed seed), the converted public key is
    the Curve25519 key of the converted private key: the coordinate of n' B where n'
    is the scalar of the converted secret; and it is the key [ScalarBaseMult] returns
    for that secret, whenever that succeeds. *)
Theorem C74_key_pair : forall sha512, (forall m, nlen (sha512 m) = 64%nat) -> forall seed, nlen seed = 32%nat ->
  let pub := encode (smul (secret_scalar (firstn 32 (sha512 seed))) pB) in
  let secret := PrivateKeyToCurve25519 sha512 (seed ++ pub) in
  exists pk u, PublicKeyToCurve25519 pub = Some pk /\ montgomery_u (smul (secret_scalar secret) pB) u /\ is_key pk u /\ smul (secret_scalar secret) pB <> pO /\
    forall pk' rep, ScalarBaseMult secret = Some (pk', rep) -> pk' = pk.
Proof.
  intros h H seed L pub secret. set (x := firstn 32 (h seed)) in *.
  assert (Lx : length x = 32%nat) by (unfold x; rewrite firstn_length, H; reflexivity).
  assert (ES : secret = clamp x) by (unfold secret, PrivateKeyToCurve25519; rewrite (firstn_seed seed pub L); reflexivity).
  clearbody secret. subst secret. destruct (clamp_ok x Lx) as (Lc & _ & _).
  assert (N : secret_scalar (clamp x) = secret_scalar x).
  { unfold secret_scalar at 1. rewrite <- (clamp_value _ Lc), (clamp_idem x Lx). apply clamp_value, Lx. }
  destruct (sbm_point (clamp x) Lc) as (NO & PX & PY & A & EA & X). rewrite EA. clear EA. unfold pub. rewrite N in *. set (P := smul (secret_scalar x) pB) in *. clearbody P.
  destruct (pk_enc P) as (pk & E & Lp & V). exists pk, (muz P). split; [exact E|]. split; [apply muz_spec|]. split; [split; assumption|].
  split; [exact NO|]. intros pk' rep S.
  destruct (sbm_from_ok _ _ X PX PY) as [[_ K]|[_ (a & b & K & La & Lb & Va & _)]]; rewrite K in S; [discriminate S|].
  assert (Q : a = pk') by congruence. rewrite <- Q. apply le_value_inj; [congruence|]. rewrite Va, V, muz_mu. reflexivity.
Qed.

(** ** C75 *)
(** Decoding a representative *)
Theorem C75_decode : forall rep, nlen rep = 32%nat -> is_key (RepresentativeToPublicKey rep) (ell_u (Z2F (le_value rep mod 2 ^ 255))).
Proof. intros rep L. exact (rep_pk_ok rep L). Qed.
(** For every secret: key generation succeeds exactly if some 32 bytes decode to the
    public key of the secret; it returns that public key, and bytes that decode to
    it. *)
Theorem C75_representative : forall sk u, nlen sk = 32%nat -> montgomery_u (smul (secret_scalar sk) pB) u ->
  match ScalarBaseMult sk with
  | Some (pk, rep) => is_key pk u /\ nlen rep = 32%nat /\ RepresentativeToPublicKey rep = pk
  | None => forall rep, nlen rep = 32%nat -> ~ is_key (RepresentativeToPublicKey rep) u
  end.
Proof.
  intros sk u L HU. apply montgomery_muz in HU. subst u. destruct (sbm_point sk L) as (NO & PX & PY & A & -> & X).
  set (P := smul (secret_scalar sk) pB) in *. clearbody P. rewrite muz_mu.
  destruct (sbm_from_ok _ _ X PX PY) as [[C ->]|[C (pk & rep & -> & Lp & Lr & Vp & Vr)]].
  - intros rep Lr K. destruct (rep_pk_ok rep Lr) as [L1 V1]. pose proof (key_inj _ _ _ (conj L1 V1) K) as E.
    pose proof (ell_image (Z2F (le_value rep mod 2 ^ 255))) as I. rewrite E in I. exact (I C).
  - split; [split; assumption|]. split; [exact Lr|]. destruct (rep_pk_ok rep Lr) as [L1 V1].
    apply le_value_inj; [congruence|]. rewrite V1, Vr, rep_val, Z2F_F2Z, Vp. f_equal. exact (rep_of_ok P PX PY C).
Qed.
(** The condition, as an equation: there is no representative exactly if u (u + A) is
    a square other than zero.  (It is never zero.) *)
Theorem C75_when : forall sk u, nlen sk = 32%nat -> montgomery_u (smul (secret_scalar sk) pB) u ->
  (u * (u + FA) <> F0)%F /\ (ScalarBaseMult sk = None <-> exists w, (w * w = u * (u + FA))%F).
Proof.
  intros sk u L HU. apply montgomery_muz in HU. subst u. destruct (sbm_point sk L) as (NO & PX & PY & A & -> & X).
  set (P := smul (secret_scalar sk) pB) in *. clearbody P. rewrite muz_mu. destruct (mu_mont P PX PY) as [M U0].
  assert (NB : (mu P + FA <> F0)%F).
  { intro Z. assert (E : mu P = (- FA)%F) by (apply Fsub_zero; rewrite <- Z; ring). rewrite E in M.
    assert (Q : mont (- FA)%F = (- F1 * FA)%F) by (unfold mont; ring). rewrite Q in M.
    apply (f_equal Fchi) in M. rewrite (Fchi_mul (- F1)%F), Fchi_opp1, FA_nonsquare in M. rewrite Fchi_square in M.
    - apply Fopp1_neq_1. transitivity (F1 * - F1)%F; [ring|symmetry; exact M].
    - intro Z0. rewrite Z0 in M. replace (F0 * F0)%F with F0 in M by ring. rewrite Fchi_0 in M. apply F1_neq_0. transitivity (- (F1 * - F1))%F; [ring|]. rewrite <- M. ring. }
  assert (NZ : (mu P * (mu P + FA) <> F0)%F) by (now apply Fmul_nonzero). split; [exact NZ|].
  destruct (sbm_from_ok _ _ X PX PY) as [[C ->]|[C (pk & rep & -> & _)]].
  - split; [intros _|reflexivity]. apply square_root. rewrite C. intro E. apply Fopp1_neq_1. symmetry. exact E.
  - split; [discriminate|]. intros [w W]. exfalso. apply C. rewrite <- W. apply Fchi_square. intro Z. apply NZ. rewrite <- W, Z. ring.
Qed.
(** Which of the four square roots: with v the second Montgomery coordinate,
    v = sqrt(-(A+2)) u / x, the choice is by v < (p-1)/2. *)
Theorem C75_which_root : forall sk u v pk rep, nlen sk = 32%nat ->
  let P := smul (secret_scalar sk) pB in montgomery_u P u -> (v * px P = Z2F (fe_value sqrtMinusA) * u)%F ->
  ScalarBaseMult sk = Some (pk, rep) ->
  (v * v = u * u * u + FA * (u * u) + u)%F /\
  let r := Z2F (le_value rep) in
  (F2Z v < (p25519 - 1) / 2 -> (F1 + F1) * (r * r) * (u + FA) = - u)%F /\
  (~ F2Z v < (p25519 - 1) / 2 -> (F1 + F1) * (r * r) * u = - (u + FA))%F.
Proof.
  intros sk u v pk rep L P HU HV S. apply montgomery_muz in HU. subst u. destruct (sbm_point sk L) as (NO & PX & PY & A & E & X). rewrite E in S. clear E.
  fold P in NO, PX, PY, X. clearbody P. rewrite muz_mu in *.
  assert (V : v = mv P). { unfold mv. apply (Fmul_cancel_r _ _ _ PX). rewrite HV. destruct fr_minusA as [_ E]. unfold fval in E. rewrite E. field. exact PX. }
  subst v. destruct (mu_mont P PX PY) as [M U0]. split; [exact M|]. cbv zeta.
  destruct (sbm_from_ok _ _ X PX PY) as [[_ K]|[C (a & b & K & La & Lb & Va & Vb)]]; rewrite K in S; [discriminate S|].
  assert (Q : b = rep) by congruence. rewrite <- Q, Vb, Z2F_F2Z. unfold rep_of. cbv zeta.
  assert (NB : (mu P + FA <> F0)%F -> (Fchi (mu P * (mu P + FA)) = - F1)%F).
  { intro NB. destruct (Fchi_values _ (Fmul_nonzero _ _ U0 NB)) as [Z|Z]; [contradiction|exact Z]. }
  destruct (F_dec (mu P + FA)%F F0) as [B|B].
  - exfalso. pose proof (rep_of_ok P PX PY C) as R. unfold rep_of in R. cbv zeta in R. rewrite B, rho_zero, rho1_zero, !corrected_zero in R.
    assert (R0 : ell_u F0 = mu P) by (destruct (Z.ltb _ _) in R; exact R).
    pose proof ell_0 as E0. rewrite E0 in R0. apply U0. symmetry. exact R0.
  - split; intro H.
    + apply Z.ltb_lt in H. rewrite H. exact (rho1_ok (mu P) (mu P + FA)%F B (NB B)).
    + apply Z.ltb_nlt in H. rewrite H. exact (rho0_ok (mu P) (mu P + FA)%F B (NB B)).
Qed.
(** The representative is a number below p: of its 256 bits the top one is never
    set, so a representative can be told from 32 random bytes.  ("uniform
    representative", extra25519.go:311.) *)
Theorem C75_range : forall sk pk rep, nlen sk = 32%nat -> ScalarBaseMult sk = Some (pk, rep) ->
  0 <= le_value rep < p25519 /\ 0 <= le_value pk < p25519.
Proof.
  intros sk pk rep L S. destruct (sbm_point sk L) as (NO & PX & PY & A & E & X). rewrite E in S. clear E.
  destruct (sbm_from_ok _ _ X PX PY) as [[_ K]|[C (a & b & K & La & Lb & Va & Vb)]]; rewrite K in S; [discriminate S|].
  assert (Q : a = pk /\ b = rep) by (split; congruence). destruct Q as [<- <-]. rewrite Va, Vb. split; apply F2Z_bound.
Qed.
(** What the comments on the two constants say is false of them; they are square
    roots of other numbers (and the code needs those). *)
Theorem C75_constants : let s := Z2F (fe_value sqrtMinusHalf) in let m := Z2F (fe_value sqrtMinusA) in
  ((F1 + F1) * (s * s) = - Fi /\ (F1 + F1) * (s * s) <> - F1 /\ m * m = - (FA + F1 + F1) /\ m * m <> - FA)%F.
Proof.
  cbv zeta. destruct fr_half as [_ E]. destruct fr_minusA as [_ E']. unfold fval in E, E'. rewrite E, E', Fs_square, Fm_square.
  split; [reflexivity|]. split; [|split; [reflexivity|]].
  - intro H. assert (I : Fi = F1). { transitivity (- - Fi)%F; [ring|]. rewrite H. ring. } pose proof Fi_square as Q. rewrite I in Q. apply Fopp1_neq_1. rewrite <- Q. ring.
  - intro H. apply F2_neq_0. transitivity (- - (FA + F1 + F1) - FA)%F; [ring|]. rewrite H. ring.
Qed.

(** ** C76 *)
(** Exactly which 32-byte strings the hash to the curve maps to the same point: with
    r and r' the low 255 bits modulo p, r' = r or r' = -r or 2 r r' = 1 or 2 r r' = -1;
    and the top bits agree, or the point has first coordinate zero. *)
Theorem C76_collisions : forall T0 T0' h h', nlen h = 32%nat -> nlen h' = 32%nat ->
  exists p p' E E', HashToEdwards T0 h = Some p /\ ext_ok p E /\ HashToEdwards T0' h' = Some p' /\ ext_ok p' E' /\
    let r := Z2F (le_value h mod 2 ^ 255) in let r' := Z2F (le_value h' mod 2 ^ 255) in
    (E = E' <-> (r' = r \/ r' = - r \/ (F1 + F1) * r * r' = F1 \/ (F1 + F1) * r * r' = - F1)%F /\
                (px E = F0 \/ Z.testbit (le_value h) 255 = Z.testbit (le_value h') 255)).
Proof.
  intros T0 T0' h h' L L'. destruct (HashToEdwards_ok T0 h L) as (p & E & K & X & Y & B). destruct (HashToEdwards_ok T0' h' L') as (p' & E' & K' & X' & Y' & B').
  exists p, p', E, E'. split; [exact K|]. split; [exact X|]. split; [exact K'|]. split; [exact X'|]. clear K K' X X' p p'. cbv zeta.
  set (r := Z2F (le_value h mod 2 ^ 255)) in *. set (r' := Z2F (le_value h' mod 2 ^ 255)) in *. clearbody r r'.
  assert (CY : py E = py E' <-> (r' = r \/ r' = - r \/ (F1 + F1) * r * r' = F1 \/ (F1 + F1) * r * r' = - F1)%F).
  { assert (S1 : (r' * r' = r * r <-> r' = r \/ r' = - r)%F).
    { split; [|intros [->| ->]; ring]. intro H. assert (Q : ((r' - r) * (r' + r) = F0)%F) by (transitivity (r' * r' - r * r)%F; [ring|rewrite H; ring]).
      apply Fmul_zero in Q. destruct Q as [Q|Q]; [left; now apply Fsub_zero|right; apply Fsub_zero; rewrite <- Q; ring]. }
    assert (S2 : ((F1 + F1) * (F1 + F1) * (r * r) * (r' * r') = F1 <-> (F1 + F1) * r * r' = F1 \/ (F1 + F1) * r * r' = - F1)%F).
    { split.
      - intro H. apply Fsquare_one. transitivity ((F1 + F1) * (F1 + F1) * (r * r) * (r' * r'))%F; [ring|exact H].
      - intros [H|H]; transitivity (((F1 + F1) * r * r') * ((F1 + F1) * r * r'))%F; try ring; rewrite H; ring. }
    transitivity (ell_u r = ell_u r').
    - rewrite Y, Y'. split; [apply ell_y_inj; apply ell_u_m1|intros ->; reflexivity].
    - rewrite ell_collide, S1, S2. tauto. }
  rewrite <- CY. split.
  - intros <-. split; [reflexivity|]. destruct B as [B|B]; [left; exact B|]. destruct B' as [B'|B']; [left; exact B'|]. right. rewrite <- B, <- B'. reflexivity.
  - intros [HY HB]. pose proof (onP E) as O. pose proof (onP E') as O'. rewrite <- HY in O'.
    destruct (same_y _ _ _ O O') as [Q|Q]; [apply point_ext; [symmetry; exact Q|exact HY]|].
    destruct (F_dec (px E) F0) as [Z|N]; [apply point_ext; [rewrite Q, Z; ring|exact HY]|].
    assert (N' : px E' <> F0). { intro Z. apply N. transitivity (- px E')%F; [rewrite Q; ring|rewrite Z; ring]. }
    destruct HB as [HB|HB]; [contradiction|]. destruct B as [B|B]; [contradiction|]. destruct B' as [B'|B']; [contradiction|].
    apply point_parity_inj; [exact HY|congruence].
Qed.
(** In particular no string but itself and three others (and those congruent modulo
    p) has the same second coordinate; and opposite ones always do: the map is not
    injective. *)
Theorem C76_opposite : forall T0 T0' h h', nlen h = 32%nat -> nlen h' = 32%nat ->
  le_value h + le_value h' = p25519 -> le_value h < 2 ^ 255 -> le_value h' < 2 ^ 255 ->
  exists p p' E, HashToEdwards T0 h = Some p /\ HashToEdwards T0' h' = Some p' /\ ext_ok p E /\ ext_ok p' E.
Proof.
  intros T0 T0' h h' L L' S U U'. destruct (C76_collisions T0 T0' h h' L L') as (p & p' & E & E' & K & X & K' & X' & I). cbv zeta in I.
  assert (Q : E = E').
  { apply I. pose proof (le_value_bound h) as B. pose proof (le_value_bound h') as B'. split.
    - right. left. rewrite !Z.mod_small by lia. rewrite <- Z2F_opp. apply Z2F_eq. replace (le_value h') with (- le_value h + 1 * p25519) by lia. rewrite Z_mod_plus_full. reflexivity.
    - right. rewrite !Z.testbit_eqb by lia. rewrite !Z.div_small by lia. reflexivity. }
  subst E'. exists p, p', E. split; [exact K|]. split; [exact K'|]. split; assumption.
Qed.
(** Representatives are not all the 32-byte strings: one with the top bit set is never
    returned. *)
Theorem C75_uniform_refuted : ~ (forall rep, nlen rep = 32%nat -> exists sk pk, nlen sk = 32%nat /\ ScalarBaseMult sk = Some (pk, rep)).
Proof.
  intro H. destruct (H (repeat xff 32) eq_refl) as (sk & pk & L & S). destruct (C75_range sk pk _ L S) as [[_ R] _].
  revert R. apply Z.le_ngt. vm_compute. discriminate.
Qed.

(** ** Instances *)
Lemma F_of_B : montgomery_u pB (Z2F 9).
Proof.
  left. split; [exact B_not_O|]. change (py pB) with (Z2F By). rewrite <- Z2F_1, <- Z2F_sub, <- Z2F_add, <- Z2F_mul. apply Z2F_eq. vm_compute. reflexivity.
Qed.
(** The base point converts to 9, and the string 02 00 .. 00 is not a key. *)
Example C74_example : (exists pk, PublicKeyToCurve25519 (encode pB) = Some pk /\ le_value pk = 9) /\
  PublicKeyToCurve25519 (x02 :: repeat x00 31) = None.
Proof.
  split.
  - destruct (C74_encoded pB _ F_of_B) as (pk & E & _ & V). exists pk. split; [exact E|]. rewrite V, F2Z_Z2F. vm_compute. reflexivity.
  - pose proof (C74_public (x02 :: repeat x00 31) eq_refl) as K. destruct (PublicKeyToCurve25519 _) as [pk|]; [|reflexivity]. exfalso.
    destruct K as (P & u & Y & _). assert (V : le_value (x02 :: repeat x00 31) mod 2 ^ 255 = 2) by (vm_compute; reflexivity). rewrite V in Y.
    pose proof (onP P) as O. apply oncurve_uv in O. rewrite Y in O.
    assert (W : ((F1 + F1) * (Z2F 36871624837952130196108090895567312538009700460282960119815992182029098947230 * Z2F 36871624837952130196108090895567312538009700460282960119815992182029098947230) = (Z2F 2 * Z2F 2 - F1) * (Fd * (Z2F 2 * Z2F 2) + F1))%F).
    { unfold Fd. rewrite <- Z2F_1. repeat first [rewrite <- Z2F_add|rewrite <- Z2F_mul|rewrite <- Z2F_sub]. apply Z2F_eq. vm_compute. reflexivity. }
    apply twice_square_chi in W; [|rewrite F0_def, Z2F_eq; intro H; revert H; vm_compute; discriminate].
    apply (nonsquare _ W ((Fd * (Z2F 2 * Z2F 2) + F1) * px P)%F). rewrite <- O. ring.
Qed.
Lemma example_u sk n x y z u : nlen sk = 32%nat -> secret_scalar sk = Zpos n -> zmul n Bx By = (x, y, z) -> (u * (z - y) - (z + y)) mod p25519 = 0 ->
  montgomery_u (smul (secret_scalar sk) pB) (Z2F u).
Proof.
  intros L N Z H. destruct (sbm_point sk L) as (_ & _ & PY & _). rewrite N in *. apply montgomery_muz. symmetry.
  apply (mu_check x y z); [|exact PY|exact H]. rewrite <- Z. apply zmul_rep. exact zB_rep.
Qed.
Definition u_a : Z := 52573937849532372069814888178136277301931757964231753054399601207743438775599.
Definition u_b : Z := 1299176309664798452705863727368535174181477389508666144864262368914056945805.
Definition sk_a : bytes := repeat x00 32.
Definition sk_b : bytes := x10 :: repeat x00 31.
Definition check_u (n : positive) (u : Z) : bool := let '(x, y, z) := zmul n Bx By in (u * (z - y) - (z + y)) mod p25519 =? 0.
Lemma example_u' sk n u : nlen sk = 32%nat -> secret_scalar sk = Zpos n -> check_u n u = true -> montgomery_u (smul (secret_scalar sk) pB) (Z2F u).
Proof.
  intros L N H. unfold check_u in H. destruct (zmul n Bx By) as [[x y] z] eqn:E. apply (example_u sk n x y z u L N E). apply Z.eqb_eq. exact H.
Qed.
Lemma mont_a : montgomery_u (smul (secret_scalar sk_a) pB) (Z2F u_a).
Proof. apply (example_u' _ (Z.to_pos (2 ^ 254))); [reflexivity|vm_compute; reflexivity|vm_cast_no_check (eq_refl true)]. Qed.
Lemma mont_b : montgomery_u (smul (secret_scalar sk_b) pB) (Z2F u_b).
Proof. apply (example_u' _ (Z.to_pos (2 ^ 254 + 16))); [reflexivity|vm_compute; reflexivity|vm_cast_no_check (eq_refl true)]. Qed.
Ltac zfe := rewrite <- ?Z2F_1; repeat first [rewrite <- Z2F_add|rewrite <- Z2F_mul|rewrite <- Z2F_sub|rewrite <- Z2F_opp].
(** Both outcomes occur. *)
Example C75_example : (exists pk rep, ScalarBaseMult sk_a = Some (pk, rep) /\ le_value pk = u_a /\ RepresentativeToPublicKey rep = pk) /\ ScalarBaseMult sk_b = None.
Proof.
  split.
  - destruct (C75_when sk_a _ eq_refl mont_a) as [_ W]. pose proof (C75_representative sk_a _ eq_refl mont_a) as R.
    destruct (ScalarBaseMult sk_a) as [[pk rep]|].
    + destruct R as ([_ V] & _ & R). exists pk, rep. split; [reflexivity|]. split; [|exact R]. rewrite V, F2Z_Z2F. vm_compute. reflexivity.
    + exfalso. destruct (proj1 W eq_refl) as [w Hw]. clear -Hw.
      assert (C : ((F1 + F1) * (Z2F 20862814597012260125888453288180327809069793853207344712685262035383288267467 * Z2F 20862814597012260125888453288180327809069793853207344712685262035383288267467) = Z2F u_a * (Z2F u_a + FA))%F).
      { unfold FA. zfe. apply Z2F_eq. vm_compute. reflexivity. }
      apply twice_square_chi in C; [|rewrite F0_def, Z2F_eq; intro H; revert H; vm_compute; discriminate].
      exact (nonsquare _ C w Hw).
  - apply (C75_when sk_b _ eq_refl mont_b). exists (Z2F 2257982972301132111703977623333653140909606723566241757727904570877806998271).
    unfold FA. zfe. apply Z2F_eq. vm_compute. reflexivity.
Qed.
(** The hash to the curve takes 5 and 1/10 to the same point. *)
Example C76_example : exists p p' E, HashToEdwards FeZero (zbytes 32 5) = Some p /\ HashToEdwards FeZero (zbytes 32 5789604461865809771178549250434395392663499233282028201972879200395656481995) = Some p' /\ ext_ok p E /\ ext_ok p' E.
Proof.
  destruct (C76_collisions FeZero FeZero (zbytes 32 5) (zbytes 32 5789604461865809771178549250434395392663499233282028201972879200395656481995) (zbytes_length _ _) (zbytes_length _ _)) as (p & p' & E & E' & K & X & K' & X' & I).
  cbv zeta in I. assert (Q : E = E').
  { apply I. rewrite !zbytes_value. change (256 ^ Z.of_nat 32) with (2 ^ 256). split.
    - right. right. left. zfe. apply Z2F_eq. vm_compute. reflexivity.
    - right. vm_compute. reflexivity. }
  subst E'. exists p, p', E. split; [exact K|]. split; [exact K'|]. split; assumption.
Qed.

Print Assumptions C74_public.
Print Assumptions C74_encoded.
Print Assumptions C74_sign_lost.
Print Assumptions C74_private.
Print Assumptions C74_key_pair.
Print Assumptions C75_decode.
Print Assumptions C75_representative.
Print Assumptions C75_when.
Print Assumptions C75_which_root.
Print Assumptions C75_range.
Print Assumptions C75_constants.
Print Assumptions C75_uniform_refuted.
Print Assumptions C76_collisions.
Print Assumptions C76_opposite.
