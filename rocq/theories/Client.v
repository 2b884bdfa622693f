(** Model of the client's consistency checks:
    protocol/client/consistencychecks.go.  A [key] argument of [None] is a nil
    slice. *)
From Coq Require Import List NArith ZArith Lia Bool Arith.
From Verif Require Import Base Utils Crypto Tree STR PAD Protocol Auditor.
Import ListNotations.

Section Client.
  Context {C : Crypto}.

  (** protocol/client/consistencychecks.go:28-37 *)
  Record Checks := mkCC {
    cc_aud : AudState; cc_bindings : list (bytes * option bytes);
    cc_useTBs : bool; cc_tbs : list (bytes * TemporaryBinding) }.

  (** protocol/client/consistencychecks.go:42-58 [New] *)
  Definition Client_New (saved : DirSTR) (useTBs : bool) (signKey : bytes) : result Checks :=
    if useTBs then Ok (mkCC (mkAud signKey saved) [] useTBs []) else Panic.

  (** protocol/client/consistencychecks.go:28-37, field update *)
  Definition set_aud (cc : Checks) (a : AudState) : Checks := mkCC a (cc_bindings cc) (cc_useTBs cc) (cc_tbs cc).
  (** protocol/client/consistencychecks.go:28-37, field update *)
  Definition set_tbs (cc : Checks) (t : list (bytes * TemporaryBinding)) : Checks :=
    mkCC (cc_aud cc) (cc_bindings cc) (cc_useTBs cc) t.

  (** protocol/client/consistencychecks.go:68-87 [CheckEquivocation] *)
  Definition CheckEquivocation (cc : Checks) (msg : Response) : result (option ErrorCode) :=
    do err <- Validate msg;
    match err with
    | Some e => Ok (Some e)
    | None =>
        match r_df msg with
        | Some (DHistory (Some strs)) =>
            match strs with
            | [] => Panic
            | s0 :: rest =>
                do err <- (match rest with [] => Ok None | _ => VerifySTRRange (cc_aud cc) s0 rest end);
                match err with
                | Some e => Ok (Some e)
                | None => CheckSTRAgainstVerified (cc_aud cc) (last strs None)
                end
            end
        | _ => Panic
        end
    end.

  (** [df.AP[0]] and [df.STR[0]] *)
  (** protocol/client/consistencychecks.go:165-204 *)
  Definition ap0 (df : DirectoryProof) : result (option AuthPath) := index (dp_ap df) 0.
  (** protocol/client/consistencychecks.go:129-149 *)
  Definition str0 (df : DirectoryProof) : result (option DirSTR) := index (dp_str df) 0.
  (** [ap.ProofType()] on a possibly nil pointer *)
  (** merkletree/proof.go:145-154 *)
  Definition proofType (ap : option AuthPath) : result proof_type :=
    do ap <- deref ap; ProofType ap.
  (** protocol/client/consistencychecks.go:165-204 *)
  Definition isAbsence (p : proof_type) : bool := match p with ProofOfAbsence => true | _ => false end.

  (** protocol/client/consistencychecks.go:129-149 [updateSTR] *)
  Definition updateSTR (cc : Checks) (t : Z) (df : DirectoryProof) : result (Checks * option ErrorCode) :=
    if Z.eqb t RegistrationType || Z.eqb t KeyLookupType then
      do str <- str0 df;
      do err <- AuditDirectory (cc_aud cc) [str];
      match err with
      | Some e => Ok (cc, Some e)
      | None => do str <- deref str; Ok (set_aud cc (Aud_Update (cc_aud cc) str), None)
      end
    else Panic.

  (** protocol/client/consistencychecks.go:206-233 [verifyAuthPath] *)
  Definition verifyAuthPath (uname : bytes) (key : option bytes) (ap : AuthPath) (str : DirSTR) : result (option ErrorCode) :=
    do pol <- deref (d_pol str);
    if negb (vrf_verify (pol_vrf pol) uname (ap_lookup ap) (ap_vrf ap)) then Ok (Some CheckBadVRFProof)
    else
      do leaf <- deref (ap_leaf ap);
      let key := match key with Some k => Some k | None => pn_value leaf end in
      do b <- deref (d_body str);
      do err <- Verify ap uname key (s_hash b);
      Ok (match err with
          | Some ErrBindingsDiffer => Some CheckBindingsDiffer
          | Some ErrUnverifiableCommitment => Some CheckBadCommitment
          | Some ErrIndicesMismatch => Some CheckBadLookupIndex
          | Some ErrUnequalTreeHashes => Some CheckBadAuthPath
          | None => None
          end).

  (** protocol/client/consistencychecks.go:165-183 [verifyRegistration] *)
  Definition verifyRegistration (cc : Checks) (e : ErrorCode) (df : DirectoryProof) (uname : bytes) (key : option bytes)
    : result (option ErrorCode) :=
    do ap <- ap0 df;
    do str <- str0 df;
    do pt <- proofType ap;
    if (Z.eqb e ReqNameExisted && negb (isAbsence pt)) ||
       (Z.eqb e ReqNameExisted && isAbsence pt && cc_useTBs cc) ||
       (Z.eqb e ReqSuccess && isAbsence pt)
    then do ap <- deref ap; do str <- deref str; verifyAuthPath uname key ap str
    else Ok (Some ErrMalformedMessage).

  (** protocol/client/consistencychecks.go:185-204 [verifyKeyLookup] *)
  Definition verifyKeyLookup (cc : Checks) (e : ErrorCode) (df : DirectoryProof) (uname : bytes) (key : option bytes)
    : result (option ErrorCode) :=
    do ap <- ap0 df;
    do str <- str0 df;
    do pt <- proofType ap;
    if (Z.eqb e ReqNameNotFound && isAbsence pt) ||
       (Z.eqb e ReqSuccess && negb (isAbsence pt)) ||
       (Z.eqb e ReqSuccess && isAbsence pt && cc_useTBs cc)
    then do ap <- deref ap; do str <- deref str; verifyAuthPath uname key ap str
    else Ok (Some ErrMalformedMessage).

  (** protocol/client/consistencychecks.go:151-163 [checkConsistency] *)
  Definition checkConsistency (cc : Checks) (t : Z) (e : ErrorCode) (df : DirectoryProof) (uname : bytes) (key : option bytes)
    : result (option ErrorCode) :=
    if Z.eqb t RegistrationType then verifyRegistration cc e df uname key
    else if Z.eqb t KeyLookupType then verifyKeyLookup cc e df uname key
    else Panic.

  (** protocol/client/consistencychecks.go:300-325 [verifyReturnedPromise] *)
  Definition verifyReturnedPromise (cc : Checks) (df : DirectoryProof) (key : option bytes) : result (option ErrorCode) :=
    do ap <- ap0 df;
    do str <- str0 df;
    match dp_tb df with
    | None => Ok (Some CheckBadPromise)
    | Some tb =>
        do str <- deref str;
        do sg <- str_sig str;
        if negb (Aud_Verify (cc_aud cc) (TB_Serialize tb sg) (tb_sig tb)) then Ok (Some CheckBadSignature)
        else
          do ap <- deref ap;
          if negb (beq (tb_index tb) (ap_lookup ap)) then Ok (Some CheckBadPromise)
          else match key with
               | Some k => Ok (if beq (tb_value tb) k then None else Some CheckBindingsDiffer)
               | None => Ok None
               end
    end.

  (** protocol/client/consistencychecks.go:278-288 [verifyFulfilledPromise] *)
  Definition verifyFulfilledPromise (cc : Checks) (uname : bytes) (ap : AuthPath) : result (option ErrorCode) :=
    match map_get beq uname (cc_tbs cc) with
    | None => Ok None
    | Some tb =>
        do leaf <- deref (ap_leaf ap);
        Ok (if negb (beq (ap_lookup ap) (tb_index tb)) || negb (beq (obytes (pn_value leaf)) (tb_value tb))
            then Some CheckBrokenPromise else None)
    end.

  (** [cc.TBs[uname] = df.TB]; only reached with a non-nil [TB]. *)
  (** protocol/client/consistencychecks.go:235-274 *)
  Definition store_tb (cc : Checks) (uname : bytes) (tb : option TemporaryBinding) : result Checks :=
    do tb <- deref tb; Ok (set_tbs cc (map_set beq uname tb (cc_tbs cc))).

  (** protocol/client/consistencychecks.go:235-274 [updateTBs] *)
  Definition updateTBs (cc : Checks) (t : Z) (e : ErrorCode) (df : DirectoryProof) (uname : bytes) (key : option bytes)
    : result (Checks * option ErrorCode) :=
    if negb (cc_useTBs cc) then Ok (cc, None)
    else if Z.eqb t RegistrationType then
      do ap <- ap0 df;
      do pt <- proofType ap;
      if isAbsence pt then
        do err <- verifyReturnedPromise cc df key;
        match err with
        | Some x => Ok (cc, Some x)
        | None => do cc' <- store_tb cc uname (dp_tb df); Ok (cc', None)
        end
      else Ok (cc, None)
    else if Z.eqb t KeyLookupType then
      do ap <- ap0 df;
      do pt <- proofType ap;
      if Z.eqb e ReqSuccess && negb (isAbsence pt) then
        do ap <- deref ap;
        do err <- verifyFulfilledPromise cc uname ap;
        match err with
        | Some x => Ok (cc, Some x)
        | None => Ok (set_tbs cc (map_del beq uname (cc_tbs cc)), None)
        end
      else if Z.eqb e ReqSuccess && isAbsence pt then
        do err <- verifyReturnedPromise cc df key;
        match err with
        | Some x => Ok (cc, Some x)
        | None => do cc' <- store_tb cc uname (dp_tb df); Ok (cc', None)
        end
      else Ok (cc, None)
    else Panic.

  (** protocol/message.go:306-308 [GetKey]: always nil *)
  Definition GetKey (msg : Response) : option bytes := None.

  (** protocol/client/consistencychecks.go:102-127 [HandleResponse].  The state
      is returned also when the checks fail, because [updateSTR] may have
      replaced the verified STR by then. *)
  Definition HandleResponse (cc : Checks) (t : Z) (msg : Response) (uname : bytes) (key : option bytes)
    : result (Checks * option ErrorCode) :=
    do err <- Validate msg;
    match err with
    | Some e => Ok (cc, Some e)
    | None =>
        if Z.eqb t RegistrationType || Z.eqb t KeyLookupType || Z.eqb t KeyLookupInEpochType || Z.eqb t MonitoringType then
          match r_df msg with
          | Some (DProof (Some df)) =>
              do (cc1, err) <- updateSTR cc t df;
              match err with
              | Some e => Ok (cc1, Some e)
              | None =>
                  do err <- checkConsistency cc1 t (r_error msg) df uname key;
                  match err with
                  | Some e => Ok (cc1, Some e)
                  | None =>
                      do (cc2, err) <- updateTBs cc1 t (r_error msg) df uname key;
                      match err with
                      | Some e => Ok (cc2, Some e)
                      | None =>
                          Ok (mkCC (cc_aud cc2) (map_set beq uname (GetKey msg) (cc_bindings cc2)) (cc_useTBs cc2) (cc_tbs cc2), None)
                      end
                  end
              end
          | Some (DProof None) => Panic
          | _ => Ok (cc, Some ErrMalformedMessage)
          end
        else Panic
    end.
End Client.
