(** Model of the command-line client: cli/coniksclient/internal/cmd/run.go. *)
From Coq Require Import List NArith ZArith Lia Bool Arith.
From Verif Require Import Base Utils Crypto Tree STR PAD Protocol Auditor Client Json Wire.
Import ListNotations.

(** What the client prints, one constructor per message. *)
(** the messages of cli/coniksclient/internal/cmd/run.go:111-217 *)
Inductive said :=
| SReceiveError                     (* Error while receiving response: ... *)
| SMissedEpoch                      (* Error: ... Maybe the client missed an epoch ... *)
| SRegistered (name : bytes)        (* Succesfully registered name: ... *)
| SAlreadyRegistered                (* Name is already registered. *)
| SKeyChange                        (* Are you trying to update your binding? ... *)
| SOtherKey (got wanted : bytes)    (* Oops! The server snuck in some other key. [got] ... instead of [wanted] *)
| SFound (key : bytes)              (* Found! Key bound to name is: [key] *)
| SNotRegistered                    (* Name isn't registered. *)
| SError (e : ErrorCode)            (* Error: e *)
| SNothing.                         (* the empty message *)

Section Cli.
  Context {C : Crypto}.

  (** [res]: what came back; [None] is an error of the connection, [Some None]
      a text that is not JSON.  The address scheme ("Invalid config!") is not
      modelled, nor are failures of marshalling. *)

  (** cli/coniksclient/internal/cmd/run.go:111-167 [register] *)
  Definition register (cc : Checks) (res : option (option json)) (name key : bytes) : result (Checks * said) :=
    match res with
    | None => Ok (cc, SReceiveError)
    | Some res =>
        do response <- UnmarshalResponse RegistrationType res;
        do (cc', err) <- HandleResponse cc RegistrationType response name (Some key);
        Ok (cc',
          match err with
          | Some e =>
              if Z.eqb e CheckBadSTR then SMissedEpoch
              else if Z.eqb e CheckBindingsDiffer then
                if Z.eqb (r_error response) ReqNameExisted then SKeyChange
                else if Z.eqb (r_error response) ReqSuccess then SOtherKey (obytes (GetKey response)) key
                else SNothing
              else SError e
          | None =>
              if Z.eqb (r_error response) ReqSuccess then SRegistered name
              else if Z.eqb (r_error response) ReqNameExisted then SAlreadyRegistered
              else SNothing
          end)
    end.

  (** cli/coniksclient/internal/cmd/run.go:169-217 [keyLookup]; a stored
      binding is passed as the expected key, a missing one is nil. *)
  Definition stored_key (cc : Checks) (name : bytes) : option bytes :=
    match map_get beq name (cc_bindings cc) with Some k => k | None => None end.
  (** cli/coniksclient/internal/cmd/run.go:169-217 *)
  Definition keyLookup (cc : Checks) (res : option (option json)) (name : bytes) : result (Checks * said) :=
    match res with
    | None => Ok (cc, SReceiveError)
    | Some res =>
        do response <- UnmarshalResponse KeyLookupType res;
        do (cc', err) <- HandleResponse cc KeyLookupType response name (stored_key cc name);
        Ok (cc',
          match err with
          | Some e => if Z.eqb e CheckBadSTR then SMissedEpoch else SError e
          | None =>
              if Z.eqb (r_error response) ReqSuccess then SFound (obytes (GetKey response))
              else if Z.eqb (r_error response) ReqNameNotFound then SNotRegistered
              else SNothing
          end)
    end.
End Cli.
