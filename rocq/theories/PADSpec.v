(** Specification vocabulary for PAD histories. *)
From Coq Require Import List NArith Lia Bool Arith.
From Verif Require Import Base Utils Crypto Tree TreeSpec STR PAD.
Import ListNotations.

Section Spec.
  Context {C : Crypto} {A : Type} (ser : A -> bytes).

  (** Calls on a PAD that change it. *)
  Inductive pad_op :=
  | PSet (r : option bytes) (key value : bytes)
  | PUpdate (ad : option A).

  (** One call; the second component is the STR issued by it, if any. *)
  Definition pad_step (p : PAD A) (op : pad_op) : result (PAD A * list (SignedTreeRoot A)) :=
    match op with
    | PSet r key value =>
        do o <- PAD_Set p r key value;
        Ok (match o with Some p' => p' | None => p end, [])
    | PUpdate ad => let p' := Update ser p ad in Ok (p', [pd_latest p'])
    end.
  Fixpoint pad_run (p : PAD A) (ops : list pad_op) : result (PAD A * list (SignedTreeRoot A)) :=
    match ops with
    | [] => Ok (p, [])
    | op :: ops' =>
        do (p', s) <- pad_step p op;
        do (p'', s') <- pad_run p' ops';
        Ok (p'', s ++ s')
    end.

  (** Number of epochs issued by a history. *)
  Fixpoint updates (ops : list pad_op) : nat :=
    match ops with
    | [] => 0
    | PUpdate _ :: ops' => S (updates ops')
    | _ :: ops' => updates ops'
    end.

  (** The part of the history up to and including its [k]-th update. *)
  Fixpoint upto (k : nat) (ops : list pad_op) : list pad_op :=
    match k, ops with
    | O, _ => []
    | _, [] => []
    | S k', PUpdate a :: ops' => PUpdate a :: upto k' ops'
    | _, op :: ops' => op :: upto k ops'
    end.

  (** What the user put under a key: the last successful [Set]. *)
  Definition put_step (f : bytes -> option binding) (op : pad_op) : bytes -> option binding :=
    match op with
    | PSet (Some r) key value =>
        fun k => if beq k key then Some (mkBinding key value (Digest [r])) else f k
    | _ => f
    end.
  Definition last_put (ops : list pad_op) : bytes -> option binding :=
    fold_left put_step ops (fun _ => None).

  (** Associated data in force after a history. *)
  Definition ad_after (ad0 : A) (ops : list pad_op) : A :=
    fold_left (fun a op => match op with PUpdate (Some a') => a' | _ => a end) ops ad0.

  (** Private index of a key. *)
  Definition idx_of (vrf : bytes) (key : bytes) : bytes := fst (vrf_prove vrf key).

  (** Keys occurring in a history. *)
  Definition op_keys (op : pad_op) : list bytes :=
    match op with PSet _ key _ => [key] | PUpdate _ => [] end.
  Definition keys_of (ops : list pad_op) : list bytes := flat_map op_keys ops.

  (** The private indices of the keys in [ks] differ within the first [n] bits:
      the quantitative form of "the VRF does not collide on these keys". *)
  Definition vrf_spread (n : nat) (vrf : bytes) (ks : list bytes) : Prop :=
    forall a b, In a ks -> In b ks ->
      firstn n (ToBits (idx_of vrf a)) = firstn n (ToBits (idx_of vrf b)) -> a = b.

  (** What honest operation needs of the VRF, for the keys in use: their indices
      differ within the first 248 bits, and their proofs are accepted (C49: the
      code's proof of a name is accepted unless the name is hashed to the neutral
      element of the group). *)
  Definition vrf_good (vrf : bytes) (ks : list bytes) : Prop :=
    vrf_spread 248 vrf ks /\
    forall k, In k ks -> vrf_verify (vrf_pub vrf) k (fst (vrf_prove vrf k)) (snd (vrf_prove vrf k)) = true.

  (** The tree operations a history performs. *)
  Definition tops1 (vrf : bytes) (op : pad_op) : tree_op :=
    match op with
    | PSet r key value => TSet r (idx_of vrf key) key value
    | PUpdate _ => TRehash
    end.
  Definition tops (vrf : bytes) (ops : list pad_op) : list tree_op := map (tops1 vrf) ops.

  (** The PAD after its VRF key was replaced (merkletree/pad.go has no method
      for it; [reshuffle] is what would follow such an assignment). *)
  Definition with_vrf (p : PAD A) (vk : bytes) : PAD A :=
    mkPAD (pd_sign p) vk (pd_tree p) (pd_snap p) (pd_loaded p) (pd_cap p) (pd_latest p) (pd_ad p).

  (** A PAD built by [NewPAD] and a history; [hist] is the list of all STRs
      issued, oldest first. *)
  Definition pad_built (ad0 : A) (sk vk : bytes) (len : nat) (r1 r2 : option bytes)
    (ops : list pad_op) (p : PAD A) (hist : list (SignedTreeRoot A)) : Prop :=
    exists p0 issued, NewPAD ser ad0 sk vk len r1 r2 = Ok (Some p0) /\
      pad_run p0 ops = Ok (p, issued) /\ hist = pd_latest p0 :: issued.
End Spec.

(** ** Chains of signed tree roots, newest first *)

(** A signed tree root with its associated data, as a verifier sees it. *)
Definition signed {C : Crypto} {A} (ser : A -> bytes) (pk : bytes) (x : STRBody * A) : Prop :=
  sign_verify pk (STR_Serialize ser (fst x) (snd x)) (s_sig (fst x)) = true.
Fixpoint linked {C : Crypto} {A} (l : list (STRBody * A)) : Prop :=
  match l with
  | x :: ((y :: _) as l') => VerifyHashChain (fst x) (fst y) = true /\ linked l'
  | _ => True
  end.
(** Field sizes of an STR issued by the code; epochs are uint64. *)
Definition str_sizes (b : STRBody) : Prop :=
  length (s_hash b) = 32 /\ length (s_phash b) = 32 /\
  (s_epoch b < 2 ^ 64)%N /\ (s_pepoch b < 2 ^ 64)%N.
(** Same signed contents: all fields, [PreviousEpoch] only after epoch 0. *)
Definition same_contents {A} (x y : STRBody * A) : Prop :=
  s_epoch (fst x) = s_epoch (fst y) /\
  ((0 < s_epoch (fst x))%N -> s_pepoch (fst x) = s_pepoch (fst y)) /\
  s_hash (fst x) = s_hash (fst y) /\ s_phash (fst x) = s_phash (fst y) /\ snd x = snd y.
Arguments pad_op A : clear implicits.
