(** Model of package [crypto] (crypto/util.go) and of the interfaces of
    [crypto/sign] and [crypto/vrf].

    SHAKE128 and Ed25519 come from golang.org/x/crypto and are not part of the
    repository: they are fields of the record [Crypto], so that every theorem
    holds for every hash function and signature scheme.  [CryptoOk] lists the
    only laws ever assumed of them; they are about lengths and about honestly
    generated signatures and proofs, never about hardness.  The VRF of
    crypto/vrf is a field here as well and is modelled on its own in [VRF.v]. *)
From Coq Require Import List NArith Lia Bool.
From Verif Require Import Base Utils.
Import ListNotations.

(** the primitives behind crypto/util.go:19-45, crypto/sign/sign.go:37-66 and crypto/vrf/vrf.go:50-231 *)
Class Crypto := {
  (** SHAKE128 with 32 bytes of output, crypto/util.go:19-27 *)
  shake : bytes -> bytes;
  (** crypto/sign/sign.go: key pair, signature, verification *)
  sign_pub : bytes -> bytes;
  sign_sign : bytes -> bytes -> bytes;            (* private key, message *)
  sign_verify : bytes -> bytes -> bytes -> bool;  (* public key, message, signature *)
  (** crypto/vrf/vrf.go: public key, [Prove] (index, proof), [Verify] *)
  vrf_pub : bytes -> bytes;
  vrf_prove : bytes -> bytes -> bytes * bytes;    (* private key, message *)
  vrf_verify : bytes -> bytes -> bytes -> bytes -> bool (* public key, message, index, proof *)
}.

(** the laws assumed of them *)
Record CryptoOk (C : Crypto) : Prop := {
  ok_shake_len : forall x, length (shake x) = 32;
  ok_sign_len : forall sk m, length (sign_sign sk m) = 64;
  ok_sign : forall sk m, sign_verify (sign_pub sk) m (sign_sign sk m) = true;
  ok_vrf_pub_len : forall sk, length (vrf_pub sk) = 32;
  ok_vrf_len : forall sk m, length (fst (vrf_prove sk m)) = 32;
  (* crypto/vrf/vrf.go:177-179 *)
  ok_vrf_verify_len : forall pk m i p, vrf_verify pk m i p = true -> length i = 32
}.

Section Model.
  Context {C : Crypto}.

  (** crypto/util.go:19-27 [Digest]: writes all slices to one sponge. *)
  Definition Digest (ms : list bytes) : bytes := shake (concat ms).

  (** crypto/util.go:38-45 [MakeRand]: [None] models a failing system RNG,
      [Some r] the 32 bytes it delivered (the length plays no role). *)
  Definition MakeRand (r : option bytes) : option bytes :=
    option_map (fun r => Digest [r]) r.

  (** crypto/util.go:49-55 [Commit].  A nil salt is the empty list: the code
      never distinguishes the two. *)
  Record Commit := mkCommit { c_salt : bytes; c_value : bytes }.

  (** crypto/util.go:60-69 [NewCommit] *)
  Definition NewCommit (r : option bytes) (stuff : list bytes) : option Commit :=
    match MakeRand r with
    | None => None
    | Some salt => Some (mkCommit salt (Digest (salt :: stuff)))
    end.

  (** crypto/util.go:73-75 [(c *Commit) Verify] *)
  Definition Commit_Verify (c : Commit) (stuff : list bytes) : bool :=
    beq (c_value c) (Digest (c_salt c :: stuff)).
End Model.
Arguments Digest {C} ms.

(** The pair [(x, y)] is a collision of the hash function. *)
(** no line of its own in /repo: specification *)
Definition is_collision {C : Crypto} (x y : bytes) : Prop := x <> y /\ shake x = shake y.

(** Two explicitly given lists of hash inputs contain a collision. *)
(** no line of its own in /repo: specification *)
Definition collision_between {C : Crypto} (xs ys : list bytes) : Prop :=
  exists x y, In x xs /\ In y ys /\ is_collision x y.

(** ** A toy instance, used only to run the model on concrete data and to show
    that [CryptoOk] is satisfiable.  Its hash is a 64-bit polynomial
    checksum padded to 32 bytes, its signatures are hashes. *)
(** no line of its own in /repo: an instance for the examples *)
Definition toy_acc (x : bytes) : N :=
  fold_left (fun a b => N.land (a * 1000003 + Byte.to_N b + 7) (2 ^ 64 - 1))%N x 12345%N.
(** no line of its own in /repo: an instance for the examples *)
Definition toy_shake (x : bytes) : bytes := le_bytes 32 (toy_acc x).
(** no line of its own in /repo: an instance for the examples *)
Definition toy_sig (pk m : bytes) : bytes := toy_shake (pk ++ m) ++ toy_shake (m ++ pk).
#[global] Instance ToyCrypto : Crypto := {
  shake := toy_shake;
  sign_pub := toy_shake;
  sign_sign sk m := toy_sig (toy_shake sk) m;
  sign_verify pk m s := beq s (toy_sig pk m);
  vrf_pub := toy_shake;
  vrf_prove sk m := (toy_shake (toy_shake sk ++ m), m);
  vrf_verify pk m i p := beq i (toy_shake (pk ++ m)) && beq p m
}.

Lemma ToyCrypto_ok : CryptoOk ToyCrypto.
Proof.
  constructor; intros; cbn [shake sign_pub sign_sign sign_verify vrf_pub vrf_prove vrf_verify ToyCrypto fst snd].
  - apply le_bytes_length.
  - unfold toy_sig. rewrite app_length. unfold toy_shake. rewrite !le_bytes_length. reflexivity.
  - apply beq_refl.
  - apply le_bytes_length.
  - apply le_bytes_length.
  - match goal with H : _ = true |- _ => apply andb_prop in H; destruct H as (H & _); apply beq_eq in H; subst end.
    apply le_bytes_length.
Qed.
(** no line of its own in /repo: an instance for the examples *)
Lemma ToyCrypto_vrf sk m : @vrf_verify ToyCrypto (@vrf_pub ToyCrypto sk) m (fst (@vrf_prove ToyCrypto sk m)) (snd (@vrf_prove ToyCrypto sk m)) = true.
Proof. cbn [vrf_pub vrf_prove vrf_verify ToyCrypto fst snd]. rewrite !beq_refl. reflexivity. Qed.
#[global] Remove Hints ToyCrypto : typeclass_instances.
