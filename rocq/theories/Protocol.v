(** Model of the protocol messages: protocol/error.go, protocol/tb.go,
    protocol/message.go, protocol/common (sign key, etc. are byte strings). *)
From Coq Require Import List NArith ZArith Lia Bool Arith.
From Verif Require Import Base Utils Crypto Tree STR PAD.
Import ListNotations.

(** protocol/error.go:9-45.  [ErrorCode] is a Go int and travels as any JSON
    number. *)
Definition ErrorCode := Z.
(** protocol/error.go:16-26 *)
Definition ReqSuccess : ErrorCode := 100%Z.
(** protocol/error.go:16-26 *)
Definition ReqNameExisted : ErrorCode := 101%Z.
(** protocol/error.go:16-26 *)
Definition ReqNameNotFound : ErrorCode := 102%Z.
(** protocol/error.go:16-26 *)
Definition ReqUnknownDirectory : ErrorCode := 103%Z.
(** protocol/error.go:16-26 *)
Definition ErrDirectory : ErrorCode := 104%Z.
(** protocol/error.go:16-26 *)
Definition ErrAuditLog : ErrorCode := 105%Z.
(** protocol/error.go:16-26 *)
Definition ErrMalformedMessage : ErrorCode := 106%Z.
(** protocol/error.go:31-41 *)
Definition CheckBadSignature : ErrorCode := 200%Z.
(** protocol/error.go:31-41 *)
Definition CheckBadVRFProof : ErrorCode := 201%Z.
(** protocol/error.go:31-41 *)
Definition CheckBindingsDiffer : ErrorCode := 202%Z.
(** protocol/error.go:31-41 *)
Definition CheckBadCommitment : ErrorCode := 203%Z.
(** protocol/error.go:31-41 *)
Definition CheckBadLookupIndex : ErrorCode := 204%Z.
(** protocol/error.go:31-41 *)
Definition CheckBadAuthPath : ErrorCode := 205%Z.
(** protocol/error.go:31-41 *)
Definition CheckBadSTR : ErrorCode := 206%Z.
(** protocol/error.go:31-41 *)
Definition CheckBadPromise : ErrorCode := 207%Z.
(** protocol/error.go:31-41 *)
Definition CheckBrokenPromise : ErrorCode := 208%Z.

(** protocol/error.go:47-53, the [errors] set *)
Definition is_error (e : ErrorCode) : bool :=
  Z.eqb e ErrMalformedMessage || Z.eqb e ErrDirectory || Z.eqb e ErrAuditLog.

(** protocol/tb.go:17-21 *)
Record TemporaryBinding := mkTB { tb_index : bytes; tb_value : bytes; tb_sig : bytes }.
(** protocol/tb.go:25-31 [Serialize] *)
Definition TB_Serialize (tb : TemporaryBinding) (strSig : bytes) : bytes :=
  strSig ++ tb_index tb ++ tb_value tb.

(** protocol/message.go:24-123, request bodies (the unused flags of
    [RegistrationRequest] are dropped). *)
Inductive request :=
| RRegistration (name key : bytes)
| RKeyLookup (name : bytes)
| RKeyLookupInEpoch (name : bytes) (epoch : N)
| RMonitoring (name : bytes) (startEpoch endEpoch : N)
| RAuditing (dirInitSTRHash : bytes) (startEpoch endEpoch : N)
| RSTRHistory (startEpoch endEpoch : N).

(** protocol/message.go:13-20 request types *)
Definition RegistrationType : Z := 0%Z.
(** protocol/message.go:13-20 *)
Definition KeyLookupType : Z := 1%Z.
(** protocol/message.go:13-20 *)
Definition KeyLookupInEpochType : Z := 2%Z.
(** protocol/message.go:13-20 *)
Definition MonitoringType : Z := 3%Z.
(** protocol/message.go:13-20 *)
Definition AuditType : Z := 4%Z.
(** protocol/message.go:13-20 *)
Definition STRType : Z := 5%Z.

(** protocol/message.go:142-146.  List elements and the temporary binding are
    pointers, nil when the JSON said null. *)
Record DirectoryProof := mkDP {
  dp_ap : list (option AuthPath); dp_str : list (option DirSTR); dp_tb : option TemporaryBinding }.

(** protocol/message.go:136-156: the two dynamic types of the interface
    [DirectoryResponse]; [None] is a typed nil pointer (decoded from a JSON
    null). *)
Inductive DirectoryResponse :=
| DProof (p : option DirectoryProof)
| DHistory (l : option (list (option DirSTR))).

(** protocol/message.go:128-131; [r_df = None] is a nil interface. *)
Record Response := mkResp { r_error : ErrorCode; r_df : option DirectoryResponse }.

(** protocol/message.go:161-163 *)
Definition NewErrorResponse (e : ErrorCode) : Response := mkResp e None.
(** protocol/message.go:178-188 *)
Definition NewRegistrationProof (ap : AuthPath) (str : DirSTR) (tb : option TemporaryBinding) (e : ErrorCode) : Response :=
  mkResp e (Some (DProof (Some (mkDP [Some ap] [Some str] tb)))).
(** protocol/message.go:200-210 *)
Definition NewKeyLookupProof (ap : AuthPath) (str : DirSTR) (tb : option TemporaryBinding) (e : ErrorCode) : Response :=
  mkResp e (Some (DProof (Some (mkDP [Some ap] [Some str] tb)))).
(** protocol/message.go:221-232 *)
Definition NewKeyLookupInEpochProof (ap : AuthPath) (strs : list DirSTR) (e : ErrorCode) : Response :=
  mkResp e (Some (DProof (Some (mkDP [Some ap] (map Some strs) None)))).
(** protocol/message.go:241-250 *)
Definition NewMonitoringProof (aps : list AuthPath) (strs : list DirSTR) : Response :=
  mkResp ReqSuccess (Some (DProof (Some (mkDP (map Some aps) (map Some strs) None)))).
(** protocol/message.go:260-267 *)
Definition NewSTRHistoryRange (strs : list (option DirSTR)) : Response :=
  mkResp ReqSuccess (Some (DHistory (Some strs))).

(** protocol/message.go:271-293 [Validate]; [None] is a nil error. *)
Definition Validate (msg : Response) : result (option ErrorCode) :=
  if is_error (r_error msg) then Ok (Some (r_error msg))
  else match r_df msg with
       | None => Ok (Some ErrMalformedMessage)
       | Some (DProof None) | Some (DHistory None) => Panic
       | Some (DProof (Some df)) =>
           match dp_str df, dp_ap df with
           | [], _ | _, [] => Ok (Some ErrMalformedMessage)
           | _, _ => Ok None
           end
       | Some (DHistory (Some l)) =>
           match l with
           | [] => Ok (Some ErrMalformedMessage)
           | _ => Ok None
           end
       end.

(** The epochs visited by [for ep := a; ep <= b; ep++] over uint64.  With
    [b = 2^64-1] the loop never ends; this is reported as [Panic]. *)
Definition epochs (a b : N) : result (list N) :=
  if N.eqb b (two64 - 1) then Panic
  else Ok (map (fun i => (a + N.of_nat i)%N) (seq 0 (N.to_nat (b + 1 - a)))).

(** Sequential execution of a loop body over a list. *)
(** no line of its own in /repo: a loop that stops at a panic *)
Fixpoint mapM {A B} (f : A -> result B) (l : list A) : result (list B) :=
  match l with
  | [] => Ok []
  | a :: l' => do b <- f a; do bs <- mapM f l'; Ok (b :: bs)
  end.
