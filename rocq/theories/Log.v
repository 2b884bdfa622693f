(** What the server writes to its log: application/logger.go and its uses in
    application/serverbase.go and application/server/server.go.  The rest of what
    these functions do is the model of Server.v and Text.v. *)
From Coq Require Import List NArith ZArith Lia Bool Arith Permutation.
From Coq Require Import String.
From Verif Require Import Base Utils Crypto Tree STR PAD Protocol Directory Json JsonText Wire Text Conc Server Path Deploy Repl.
Import ListNotations.
Local Open Scope list_scope.
Local Open Scope nat_scope.
Notation length := List.length.

(** One call of a method of the logger: its name, the message, the keys and
    values.  Time, stack trace and layout are left out. *)
(** application/logger.go:73-139; Panic and Fatal are never called. *)
Inductive severity := Debug | Info | Warn | Error.
(** application/logger.go:73-139: values of the uses are strings and integers *)
Inductive value := VText (s : bytes) | VInt (z : Z).
(** application/logger.go:73-139 *)
Record entry := mkEntry { e_sev : severity; e_msg : bytes; e_fields : list (bytes * value) }.

(** application/logger.go:31-71: [Debug] and above in development, [Info] and
    above in production *)
Definition enabled (env : bytes) (s : severity) : bool :=
  if EqualFold (key "development") env then true
  else match s with Debug => false | _ => true end.
(** application/logger.go:31-71: what arrives on stderr and in the file *)
Definition written (env : bytes) (l : list entry) : list entry := filter (fun e => enabled env (e_sev e)) l.

(** ** One connection *)

(** application/serverbase.go:201-206: [io.CopyN] ends at 8192 bytes or at the end
    of what the client sends, or fails (deadline, reset) with a text. *)
Inductive reading := Broken (err : bytes) | Sent (s : bytes).
(** application/serverbase.go:195-250, the parameters [addr] and [conn] of
    [acceptClient]: the pointer of the address, [conn.RemoteAddr().String()], what
    reading gives, the entropy its handler would draw, the error of [conn.Write]. *)
Record visit := mkVisit { v_at : nat; v_remote : bytes; v_read : reading; v_entropy : option bytes; v_write : option bytes }.
(** application/serverbase.go:204, 234, 247 *)
Definition address (remote : bytes) : bytes * value := (key "address", VText remote).

Section Log.
  Context {C : Crypto}.

  (** application/serverbase.go:185-193 *)
  Definition checkRequestType_log (p : permtable) (addr : nat) (t : Z) : bool * list entry :=
    if p addr t then (true, []) else (false, [mkEntry Error (key "Unacceptable message type") [(key "request type", VInt t)]]).
  (** application/serverbase.go:195-250: the directory after, the bytes handed to
      [conn.Write] (none if reading failed), the log. *)
  Definition acceptClient (p : permtable) (d : Directory) (v : visit) : result (Directory * option bytes * list entry) :=
    match v_read v with
    | Broken err => Ok (d, None, [mkEntry Error err [address (v_remote v)]])               (* :203-205 *)
    | Sent s =>
        let malformedClientMsg := NewErrorResponse ErrMalformedMessage in
        do (d', response, l) <-
          match obind (received s) UnmarshalRequest with
          | None => Ok (d, malformedClientMsg, [])                                         (* :210-211 *)
          | Some req =>
              let (ok, l) := checkRequestType_log p (v_at v) (q_type req) in
              if ok then
                do (d', response) <- HandleRequests d (v_entropy v) req;                   (* :223 *)
                Ok (d', response,
                    l ++ if Z.eqb (r_error response) ReqSuccess then []
                         else [mkEntry Warn (error_text (r_error response)) [address (v_remote v)]])   (* :232-235 *)
              else Ok (d, malformedClientMsg, l)                                           (* :214 *)
          end;
        Ok (d', Some (response_text response),
            l ++ match v_write v with
                 | Some err => [mkEntry Error err [address (v_remote v)]]                  (* :245-249 *)
                 | None => []
                 end)
    end.

  (** ** A run: connections, errors of Accept, ticks of the timer, reload signals.
      A reload reads the configuration: the new deadline or the error's text. *)
  Inductive happening := HVisit (v : visit) | HAccept (err : bytes) | HTick | HReload (r : N + bytes).
  (** application/serverbase.go:162-169, 195-291, application/server/server.go:131-143 *)
  Definition happen (p : permtable) (d : Directory) (h : happening) : result (Directory * option bytes * list entry) :=
    match h with
    | HVisit v => acceptClient p d v
    | HAccept err => Ok (d, None, [mkEntry Error err []])                                  (* :167 *)
    | HTick => Ok (Directory_Update d, None, [])
    | HReload (inl deadline) => Ok (SetPolicies d deadline, None, [mkEntry Info (key "Policies reloaded!") []])
    | HReload (inr err) => Ok (d, None, [mkEntry Error err []])
    end.
  (** application/serverbase.go:93-291, in the order in which the lock is taken *)
  Fixpoint serve (p : permtable) (d : Directory) (hs : list happening) : result (Directory * list (option bytes) * list entry) :=
    match hs with
    | [] => Ok (d, [], [])
    | h :: hs' =>
        do (d1, o, l) <- happen p d h;
        do (d2, os, l') <- serve p d1 hs';
        Ok (d2, o :: os, l ++ l')
    end.
End Log.

(** ** Starting: the addresses *)

(** The main goroutine in the loop of application/server/server.go:112-120:
    before the assignment of [Verb] for the address with this number ([true]: the
    address permits registration), or between it and the start of its goroutine;
    after the loop (:122); then serving. *)
Inductive run_pc := AtAssign (i : nat) | AtStart (i : nat) | AtWarn | Serving.
(** application/server/server.go:106-129, application/serverbase.go:93-102: [rs_verb] is
    the field [Verb], [rs_waiting] the goroutines that have not logged yet. *)
Record run_state := mkRun { rs_pc : run_pc; rs_verb : bytes; rs_waiting : list nat; rs_log : list entry }.
(** application/server/server.go:54 *)
Definition verb0 : bytes := key "Listen".
(** application/server/server.go:116 *)
Definition verb1 : bytes := key "Accepting registrations".
(** application/server/server.go:106-114 *)
Definition run_init : run_state := mkRun (AtAssign 0) verb0 [] [].
(** One step: of the main goroutine, or of any waiting goroutine, which reads [Verb]
    and logs (application/serverbase.go:98). *)
Inductive run_step (addrs : list (bytes * bool)) : run_state -> run_state -> Prop :=
| rs_assign i a allow v w l : nth_error addrs i = Some (a, allow) ->
    run_step addrs (mkRun (AtAssign i) v w l) (mkRun (AtStart i) (if allow then verb1 else v) w l)
| rs_start i v w l : run_step addrs (mkRun (AtStart i) v w l) (mkRun (AtAssign (S i)) v (i :: w) l)
| rs_out v w l : run_step addrs (mkRun (AtAssign (length addrs)) v w l) (mkRun AtWarn v w l)
| rs_warn v w l : run_step addrs (mkRun AtWarn v w l)
    (mkRun Serving v w (l ++ if existsb snd addrs then [] else [mkEntry Warn (key "None of the addresses permit registration") []]))
| rs_log1 pc v w1 j w2 l a allow : nth_error addrs j = Some (a, allow) ->
    run_step addrs (mkRun pc v (w1 ++ j :: w2) l) (mkRun pc v (w1 ++ w2) (l ++ [mkEntry Info v [address a]])).
(** application/server/server.go:106-129 *)
Inductive run_reaches (addrs : list (bytes * bool)) : run_state -> Prop :=
| rr_init : run_reaches addrs run_init
| rr_step s s' : run_reaches addrs s -> run_step addrs s s' -> run_reaches addrs s'.
(** Two goroutines that may be at the same variable at once, one of them about to
    write: the assignment server.go:116 and the reading of [Verb] in serverbase.go:98. *)
Definition verb_race (addrs : list (bytes * bool)) (s : run_state) : Prop :=
  exists i a, rs_pc s = AtAssign i /\ nth_error addrs i = Some (a, true) /\ rs_waiting s <> [].
