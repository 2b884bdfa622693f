(** Specification vocabulary for auditing: chains of STRs and audit-log
    histories. *)
From Coq Require Import List NArith ZArith Lia Bool Arith.
From Verif Require Import Base Utils Crypto Tree STR PAD PADSpec Protocol Directory DirSpec Auditor.
Import ListNotations.

Section Spec.
  Context {C : Crypto}.

  (** Every STR of the list is signed under [pk] and extends its predecessor,
      the first one extending [prev]. *)
  Fixpoint follows (pk : bytes) (prev : DirSTR) (l : list DirSTR) : Prop :=
    match l with
    | [] => True
    | s :: l' => signed_by pk s /\ extends s prev /\ follows pk s l'
    end.

  (** Calls on an audit log that may change it. *)
  Inductive log_op :=
  | LInit (addr signKey : bytes) (snaps : list (option DirSTR))
  | LAudit (id : bytes) (msg : Response).

  (** One call.  [Audit] acts on the history stored under [id] (through a
      pointer); asking for an unknown one changes nothing. *)
  Definition log_step (l : AuditLog) (op : log_op) : result AuditLog :=
    match op with
    | LInit addr key snaps => do (l', _) <- InitHistory l addr key snaps; Ok l'
    | LAudit id msg =>
        match map_get beq id l with
        | None => Ok l
        | Some h => do (h', _) <- Audit h msg; Ok (map_set beq id h' l)
        end
    end.
  Fixpoint log_run (l : AuditLog) (ops : list log_op) : result AuditLog :=
    match ops with
    | [] => Ok l
    | op :: ops' => do l' <- log_step l op; log_run l' ops'
    end.

  (** The saved snapshots handed to [InitHistory] are a verified chain (as they
      are at first start, when there is only the initial STR). *)
  Definition good_init (op : log_op) : Prop :=
    match op with
    | LInit _ pk snaps => exists s0 l, snaps = map Some (s0 :: l) /\ follows pk s0 l
    | LAudit _ _ => True
    end.

  (** The log answers every range request about [id] as if its history were
      exactly [chain] (epoch [k] at position [k]). *)
  Definition serves (l : AuditLog) (id : bytes) (chain : list DirSTR) : Prop :=
    forall a b : nat, GetObservedSTRs l id (N.of_nat a) (N.of_nat b) =
      Ok (if (b <? a) || (length chain <=? b) then NewErrorResponse ErrMalformedMessage
          else NewSTRHistoryRange (map Some (firstn (S b - a) (skipn a chain)))).
End Spec.

(** Number of STRs received in a history of calls. *)
Definition op_size (op : log_op) : nat :=
  match op with
  | LInit _ _ snaps => length snaps
  | LAudit _ msg => match r_df msg with Some (DHistory (Some l)) => length l | _ => 0 end
  end.
Definition received (ops : list log_op) : nat := list_sum (map op_size ops).
