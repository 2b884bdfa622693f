(** Model of the STR verification shared by clients and auditors
    (protocol/auditor/auditor.go, common.go) and of the audit log
    (protocol/auditlog/auditlog.go). *)
From Coq Require Import List NArith ZArith Lia Bool Arith.
From Verif Require Import Base Utils Crypto Tree STR PAD Protocol.
Import ListNotations.

(** *** Equality of STRs as [reflect.DeepEqual] decides it on decoded STRs.
    Decoded STRs have nil [tree] and [Ad].  The one difference to the Go
    function: it tells a nil slice from an empty one and the model does not, so
    the code accepts fewer pairs. *)
(** protocol/auditor/auditor.go:55-60 *)
Definition body_eqb (a b : STRBody) : bool :=
  beq (s_hash a) (s_hash b) && N.eqb (s_epoch a) (s_epoch b) && N.eqb (s_pepoch a) (s_pepoch b) &&
  beq (s_phash a) (s_phash b) && beq (s_sig a) (s_sig b).
(** protocol/auditor/auditor.go:55-60 *)
Definition pol_eqb (a b : Policies) : bool :=
  beq (pol_version a) (pol_version b) && beq (pol_hashid a) (pol_hashid b) &&
  beq (pol_vrf a) (pol_vrf b) && N.eqb (pol_deadline a) (pol_deadline b).
(** protocol/auditor/auditor.go:55-60 *)
Definition opt_eqb {A} (f : A -> A -> bool) (a b : option A) : bool :=
  match a, b with
  | None, None => true
  | Some a, Some b => f a b
  | _, _ => false
  end.
(** protocol/auditor/auditor.go:55-60 *)
Definition dir_eqb (a b : DirSTR) : bool :=
  opt_eqb body_eqb (d_body a) (d_body b) && opt_eqb pol_eqb (d_pol a) (d_pol b).

Section Auditor.
  Context {C : Crypto}.

  (** protocol/auditor/auditor.go:21-24.  The verified STR is pinned at
      creation and never nil. *)
  Record AudState := mkAud { au_key : bytes; au_str : DirSTR }.

  (** [str.Epoch] through the embedded pointer *)
  (** e.g. protocol/auditor/auditor.go:95 *)
  Definition str_epoch (s : DirSTR) : result N :=
    match d_body s with None => Panic | Some b => Ok (s_epoch b) end.
  (** [str.Signature] *)
  (** e.g. protocol/auditor/auditor.go:69 *)
  Definition str_sig (s : DirSTR) : result bytes :=
    match d_body s with None => Panic | Some b => Ok (s_sig b) end.
  (** Dereference of a pointer that may be nil. *)
  (** e.g. protocol/auditor/auditor.go:69 *)
  Definition deref {A} (p : option A) : result A :=
    match p with None => Panic | Some a => Ok a end.

  (** protocol/auditor/auditor.go:39-41 [Verify] *)
  Definition Aud_Verify (a : AudState) (message sig : bytes) : bool := sign_verify (au_key a) message sig.

  (** protocol/auditor/auditor.go:49-51 [Update] *)
  Definition Aud_Update (a : AudState) (s : DirSTR) : AudState := mkAud (au_key a) s.

  (** protocol/auditor/auditor.go:67-78 [verifySTRConsistency]; [Ok None] is a
      nil error.  [prev] may be nil. *)
  Definition verifySTRConsistency (a : AudState) (prev : option DirSTR) (str : DirSTR) : result (option ErrorCode) :=
    do m <- DirSTR_Serialize str;
    do sg <- str_sig str;
    if negb (Aud_Verify a m sg) then Ok (Some CheckBadSignature)
    else
      do prev <- deref prev;
      do ok <- DirSTR_VerifyHashChain str prev;
      Ok (if ok : bool then None else Some CheckBadSTR).

  (** protocol/auditor/auditor.go:89-110 [CheckSTRAgainstVerified], with
      [compareWithVerified] (55-60) inlined. *)
  Definition CheckSTRAgainstVerified (a : AudState) (str : option DirSTR) : result (option ErrorCode) :=
    do str <- deref str;
    do e <- str_epoch str;
    do v <- str_epoch (au_str a);
    if N.eqb e v then Ok (if dir_eqb (au_str a) str then None else Some CheckBadSTR)
    else if N.eqb e (add64 v 1) then verifySTRConsistency a (Some (au_str a)) str
    else Ok (Some CheckBadSTR).

  (** protocol/auditor/auditor.go:116-133 [VerifySTRRange] *)
  Fixpoint VerifySTRRange (a : AudState) (prev : option DirSTR) (strs : list (option DirSTR)) : result (option ErrorCode) :=
    match strs with
    | [] => Ok None
    | None :: _ => Ok (Some ErrMalformedMessage)
    | Some str :: strs' =>
        do err <- verifySTRConsistency a prev str;
        match err with
        | Some e => Ok (Some e)
        | None => VerifySTRRange a (Some str) strs'
        end
    end.

  (** protocol/auditor/auditor.go:141-160 [AuditDirectory] *)
  Definition AuditDirectory (a : AudState) (strs : list (option DirSTR)) : result (option ErrorCode) :=
    match strs with
    | [] => Ok (Some ErrMalformedMessage)
    | str0 :: rest =>
        do err <- CheckSTRAgainstVerified a str0;
        match err with
        | Some e => Ok (Some e)
        | None => VerifySTRRange a str0 rest
        end
    end.

  (** protocol/auditor/common.go:13-21 [ComputeDirectoryIdentity].  The digest
      always fills the 32-byte array. *)
  Definition ComputeDirectoryIdentity (s : DirSTR) : result bytes :=
    do e <- str_epoch s;
    if N.eqb e 0 then do sg <- str_sig s; Ok (Digest [sg]) else Panic.

  (** *** The audit log *)

  (** protocol/auditlog/auditlog.go:17-21.  Snapshots are never nil. *)
  Record history := mkHist { h_aud : AudState; h_addr : bytes; h_snaps : list (N * DirSTR) }.

  (** protocol/auditlog/auditlog.go:47-50 [updateVerifiedSTR] *)
  Definition updateVerifiedSTR (h : history) (s : option DirSTR) : result history :=
    do s <- deref s;
    do e <- str_epoch s;
    Ok (mkHist (Aud_Update (h_aud h) s) (h_addr h) (map_set N.eqb e s (h_snaps h))).

  (** protocol/auditlog/auditlog.go:32-43 [newDirectoryHistory] *)
  Definition newDirectoryHistory (addr signKey : bytes) (initSTR : DirSTR) : result history :=
    updateVerifiedSTR (mkHist (mkAud signKey initSTR) addr []) (Some initSTR).

  (** protocol/auditlog/auditlog.go:55-59 [insertRange] *)
  Fixpoint insertRange (h : history) (snaps : list (option DirSTR)) : result history :=
    match snaps with
    | [] => Ok h
    | s :: snaps' => do h' <- updateVerifiedSTR h s; insertRange h' snaps'
    end.

  (** protocol/auditlog/auditlog.go:70-91 [Audit]; the type assertion panics on
      a directory proof. *)
  Definition Audit (h : history) (msg : Response) : result (history * option ErrorCode) :=
    do err <- Validate msg;
    match err with
    | Some e => Ok (h, Some e)
    | None =>
        match r_df msg with
        | Some (DHistory (Some strs)) =>
            do err <- AuditDirectory (h_aud h) strs;
            match err with
            | Some e => Ok (h, Some e)
            | None => do h' <- insertRange h strs; Ok (h', None)
            end
        | _ => Panic
        end
    end.

  (** protocol/auditlog/auditlog.go:28: the log, keyed by directory identity *)
  Definition AuditLog := list (bytes * history).

  (** protocol/auditlog/auditlog.go:126-155 [InitHistory] *)
  Definition InitHistory (l : AuditLog) (addr signKey : bytes) (snaps : list (option DirSTR))
    : result (AuditLog * option ErrorCode) :=
    match snaps with
    | [] => Ok (l, Some ErrMalformedMessage)
    | s0 :: rest =>
        do s0 <- deref s0;
        do e0 <- str_epoch s0;
        if negb (N.eqb e0 0) then Ok (l, Some ErrMalformedMessage)
        else
          do id <- ComputeDirectoryIdentity s0;
          match map_get beq id l with
          | Some _ => Ok (l, Some ErrAuditLog)
          | None =>
              do h <- newDirectoryHistory addr signKey s0;
              do h <- insertRange h rest;
              Ok (map_set beq id h l, None)
          end
    end.

  (** protocol/auditlog/auditlog.go:174-193 [GetObservedSTRs].  A missing map
      entry reads as a nil pointer. *)
  Definition GetObservedSTRs (l : AuditLog) (id : bytes) (startEpoch endEpoch : N) : result Response :=
    match map_get beq id l with
    | None => Ok (NewErrorResponse ReqUnknownDirectory)
    | Some h =>
        do v <- str_epoch (au_str (h_aud h));
        if N.ltb v endEpoch || N.ltb endEpoch startEpoch then Ok (NewErrorResponse ErrMalformedMessage)
        else
          do eps <- epochs startEpoch endEpoch;
          Ok (NewSTRHistoryRange (map (fun ep => map_get N.eqb ep (h_snaps h)) eps))
    end.
End Auditor.
