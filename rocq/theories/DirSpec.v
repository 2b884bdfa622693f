(** Specification vocabulary for directory histories. *)
From Coq Require Import List NArith ZArith Lia Bool Arith.
From Verif Require Import Base Utils Crypto Tree STR PAD PADSpec Protocol Directory.
Import ListNotations.

(** Calls that may change a directory.  Lookups, monitoring and history
    requests are functions of the directory and do not change it. *)
Inductive dir_op :=
| DRegister (r : option bytes) (name key : bytes)
| DUpdate
| DSetPolicies (deadline : N).

Section Spec.
  Context {C : Crypto}.

  Definition dir_step (d : Directory) (op : dir_op) : result Directory :=
    match op with
    | DRegister r name key => do (d', _) <- Register d r name key; Ok d'
    | DUpdate => Ok (Directory_Update d)
    | DSetPolicies t => Ok (SetPolicies d t)
    end.
  Fixpoint dir_run (d : Directory) (ops : list dir_op) : result Directory :=
    match ops with
    | [] => Ok d
    | op :: ops' => do d' <- dir_step d op; dir_run d' ops'
    end.

  (** [d] results from a new directory by the calls [ops]. *)
  Definition dir_built (dl0 : N) (vk sk : bytes) (size : nat) (r1 r2 : option bytes)
    (ops : list dir_op) (d : Directory) : Prop :=
    exists d0, Directory_New dl0 vk sk size true r1 r2 = Ok d0 /\ dir_run d0 ops = Ok d.
End Spec.

(** The number of the latest epoch. *)
Fixpoint dupdates (ops : list dir_op) : nat :=
  match ops with
  | [] => 0
  | DUpdate :: ops' => S (dupdates ops')
  | _ :: ops' => dupdates ops'
  end.

(** The history up to and including its [k]-th update: what epoch [k] shows. *)
Fixpoint dupto (k : nat) (ops : list dir_op) : list dir_op :=
  match k, ops with
  | O, _ => []
  | _, [] => []
  | S k', DUpdate :: ops' => DUpdate :: dupto k' ops'
  | _, op :: ops' => op :: dupto k ops'
  end.

(** The key registered for each name: the first well-formed registration (one
    with non-empty name and key that was not hit by lack of entropy). *)
Definition reg_step (f : bytes -> option bytes) (op : dir_op) : bytes -> option bytes :=
  match op with
  | DRegister (Some _) name key =>
      if is_nil name || is_nil key then f
      else fun n => if beq n name then match f n with Some k => Some k | None => Some key end else f n
  | _ => f
  end.
Definition reg (ops : list dir_op) : bytes -> option bytes := fold_left reg_step ops (fun _ => None).

(** Registered and shown in the snapshot of the latest epoch. *)
Definition visible (ops : list dir_op) (name : bytes) : option bytes := reg (dupto (dupdates ops) ops) name.

(** All names for which registration was requested. *)
Definition op_names (op : dir_op) : list bytes :=
  match op with DRegister _ name _ => [name] | _ => [] end.
Definition names_of (ops : list dir_op) : list bytes := flat_map op_names ops.

(** The deadline set last. *)
Definition deadline_after (dl0 : N) (ops : list dir_op) : N :=
  fold_left (fun t op => match op with DSetPolicies t' => t' | _ => t end) ops dl0.

(** [s] is the STR that the directory published for epoch [k] of the history
    [ops]: what [LatestSTR] answered right after the [k]-th update. *)
Definition published {C : Crypto} (dl0 : N) (vk sk : bytes) (size : nat) (r1 r2 : option bytes)
  (ops : list dir_op) (k : nat) (s : DirSTR) : Prop :=
  exists d, dir_built dl0 vk sk size r1 r2 (dupto k ops) d /\ s = LatestSTR d.

(** [s] verifies under the signing key and extends [saved]. *)
Definition signed_by {C : Crypto} (pk : bytes) (s : DirSTR) : Prop :=
  exists b bs, d_body s = Some b /\ DirSTR_Serialize s = Ok bs /\ sign_verify pk bs (s_sig b) = true.
Definition extends {C : Crypto} (s saved : DirSTR) : Prop := DirSTR_VerifyHashChain s saved = Ok true.
Definition epoch_of (s : DirSTR) : option N := option_map s_epoch (d_body s).
Definition tree_hash_of (s : DirSTR) : bytes := match d_body s with Some b => s_hash b | None => [] end.
Definition sig_of (s : DirSTR) : bytes := match d_body s with Some b => s_sig b | None => [] end.

(** An authentication path for [name] with a valid VRF proof that shows
    [v] ([None]: absence) against a tree hash. *)
Definition shows {C : Crypto} (vpk name : bytes) (ap : AuthPath) (v : option bytes) (h : bytes) : Prop :=
  vrf_verify vpk name (ap_lookup ap) (ap_vrf ap) = true /\
  Verify ap name v h = Ok None /\
  exists leaf, ap_leaf ap = Some leaf /\ pn_value leaf = v /\
    ProofType ap = Ok (match v with Some _ => ProofOfInclusion | None => ProofOfAbsence end).

(** [strs] is the gap-free part of the published chain that starts at epoch
    [a]: each is what the directory published for its epoch, is signed by the
    directory, and extends its predecessor. *)
Definition chain_from {C : Crypto} (dl0 : N) (vk sk : bytes) (size : nat) (r1 r2 : option bytes)
  (ops : list dir_op) (a : nat) (strs : list DirSTR) : Prop :=
  (forall i s, nth_error strs i = Some s ->
     published dl0 vk sk size r1 r2 ops (a + i) s /\ epoch_of s = Some (N.of_nat (a + i)) /\
     signed_by (sign_pub sk) s) /\
  (forall i s s', nth_error strs i = Some s -> nth_error strs (S i) = Some s' -> extends s' s).

(** The epochs still held by a directory of capacity [size] after [n] updates
    are [lo .. n]: at most [max 2 size] of them, and more than half the capacity
    unless nothing was ever dropped. *)
Definition window (size n lo : nat) : Prop :=
  lo <= n /\ S n - lo <= Nat.max 2 size /\ (lo = 0 \/ Nat.max 1 size / 2 < S n - lo).
