(** Specification vocabulary for the client's consistency checks. *)
From Coq Require Import List NArith ZArith Lia Bool Arith.
From Verif Require Import Base Utils Crypto Tree STR PAD PADSpec Protocol Directory DirSpec Auditor AudSpec Client.
Import ListNotations.

Section Spec.
  Context {C : Crypto}.

  (** [s] is the client's verified STR or a signed successor of it. *)
  Definition next_str (a : AudState) (s : DirSTR) : Prop :=
    d_body s <> None /\ (s = au_str a \/ (signed_by (au_key a) s /\ extends s (au_str a))).

  (** [tb] is a promise for the index [i], signed together with the STR's
      signature, and for [key] if the client knows one. *)
  Definition good_promise (pk : bytes) (s : DirSTR) (i : bytes) (key : option bytes) (tb : TemporaryBinding) : Prop :=
    sign_verify pk (TB_Serialize tb (sig_of s)) (tb_sig tb) = true /\ tb_index tb = i /\
    (forall k, key = Some k -> tb_value tb = k).

  (** What an answer must look like to be accepted: the first STR is the
      verified one or its successor, the VRF proof is valid under that STR's
      policies, the path verifies against its tree hash for the given key (or,
      without one, the key in the answer), and status code, kind of proof and
      promises fit together. *)
  Definition acceptable (cc : Checks) (t : Z) (msg : Response) (uname : bytes) (key : option bytes) : Prop :=
    exists df ap aps s strs pol b leaf pt,
      r_df msg = Some (DProof (Some df)) /\
      dp_ap df = Some ap :: aps /\ dp_str df = Some s :: strs /\
      next_str (cc_aud cc) s /\ d_pol s = Some pol /\ d_body s = Some b /\
      ap_leaf ap = Some leaf /\ ProofType ap = Ok pt /\
      vrf_verify (pol_vrf pol) uname (ap_lookup ap) (ap_vrf ap) = true /\
      Verify ap uname (match key with Some k => Some k | None => pn_value leaf end) (s_hash b) = Ok None /\
      match pt with
      | ProofOfInclusion =>
          (t = RegistrationType /\ r_error msg = ReqNameExisted) \/
          (t = KeyLookupType /\ r_error msg = ReqSuccess /\
           forall tb, map_get beq uname (cc_tbs cc) = Some tb ->
             tb_index tb = ap_lookup ap /\ tb_value tb = obytes (pn_value leaf))
      | ProofOfAbsence =>
          (t = KeyLookupType /\ r_error msg = ReqNameNotFound) \/
          (((t = RegistrationType /\ (r_error msg = ReqSuccess \/ r_error msg = ReqNameExisted)) \/
            (t = KeyLookupType /\ r_error msg = ReqSuccess)) /\
           exists tb, dp_tb df = Some tb /\ good_promise (au_key (cc_aud cc)) s (ap_lookup ap) key tb)
      end.

  (** One interaction: request type, answer, name, key known to the user. *)
  Definition interaction := (Z * Response * bytes * option bytes)%type.
  Fixpoint client_run (cc : Checks) (l : list interaction) : result Checks :=
    match l with
    | [] => Ok cc
    | (t, msg, uname, key) :: l' => do (cc', _) <- HandleResponse cc t msg uname key; client_run cc' l'
    end.

  (** The answer's first authentication path and STR. *)
  Definition answer (msg : Response) (ap : AuthPath) (s : DirSTR) : Prop :=
    exists df aps strs, r_df msg = Some (DProof (Some df)) /\ dp_ap df = Some ap :: aps /\ dp_str df = Some s :: strs.
End Spec.

(** *** Honest runs of one client and one directory *)

(** What happens: something at the directory that does not involve our client
    (another user's registration, an epoch update, a policy change), our client
    registering a key, or our client looking up a name, with or without a key to
    compare. *)
Inductive joint_op :=
| JOther (op : dir_op)
| JRegister (r name key : bytes)
| JLookup (name : bytes) (key : option bytes).

Section Joint.
  Context {C : Crypto}.
  (** Directory, client, and the outcomes of our client's interactions. *)
  Definition joint_step (d : Directory) (cc : Checks) (op : joint_op)
    : result (Directory * Checks * list (option ErrorCode)) :=
    match op with
    | JOther op => do d' <- dir_step d op; Ok (d', cc, [])
    | JRegister r name key =>
        do (d', resp) <- Register d (Some r) name key;
        do (cc', err) <- HandleResponse cc RegistrationType resp name (Some key);
        Ok (d', cc', [err])
    | JLookup name key =>
        do resp <- KeyLookup d name;
        do (cc', err) <- HandleResponse cc KeyLookupType resp name key;
        Ok (d, cc', [err])
    end.
  Fixpoint joint_run (d : Directory) (cc : Checks) (l : list joint_op)
    : result (Directory * Checks * list (option ErrorCode)) :=
    match l with
    | [] => Ok (d, cc, [])
    | op :: l' =>
        do (x, out) <- joint_step d cc op;
        do (y, outs) <- joint_run (fst x) (snd x) l';
        Ok (y, out ++ outs)
    end.
End Joint.

(** The calls at the directory. *)
Definition server_op (op : joint_op) : list dir_op :=
  match op with
  | JOther op => [op]
  | JRegister r name key => [DRegister (Some r) name key]
  | JLookup _ _ => []
  end.
Definition server_ops (l : list joint_op) : list dir_op := flat_map server_op l.

(** Names are not empty, nor are registered keys. *)
Definition wf_contact (op : joint_op) : Prop :=
  match op with
  | JOther _ => True
  | JRegister _ name key => name <> [] /\ key <> []
  | JLookup name _ => name <> []
  end.
Definition contact_names (op : joint_op) : list bytes :=
  match op with JLookup name _ => [name] | _ => [] end.

(** At most one epoch passes between two contacts ([lag]: epochs since the last
    contact). *)
Fixpoint prompt (lag : nat) (l : list joint_op) : Prop :=
  match l with
  | [] => True
  | JOther DUpdate :: l' => lag = 0 /\ prompt 1 l'
  | JOther _ :: l' => prompt lag l'
  | _ :: l' => prompt 0 l'
  end.

(** The outcomes a user should see: success, except that a key differing from
    the one registered first for the name is reported. *)
Definition outcome (h : list dir_op) (op : joint_op) : list (option ErrorCode) :=
  match op with
  | JOther _ => []
  | JRegister _ name key =>
      [match reg h name with
       | Some k => if beq k key then None else Some CheckBindingsDiffer
       | None => None
       end]
  | JLookup name key =>
      [match key, reg h name with
       | Some key, Some k => if beq k key then None else Some CheckBindingsDiffer
       | _, _ => None
       end]
  end.
Fixpoint outcomes (h : list dir_op) (l : list joint_op) : list (option ErrorCode) :=
  match l with
  | [] => []
  | op :: l' => outcome h op ++ outcomes (h ++ server_op op) l'
  end.
Definition is_contact (op : joint_op) : bool := match op with JOther _ => false | _ => true end.
