(** The proxy's mailbox: which direct messages it destroys, and when.  Models
    application/bots/twitterbot.go:70-76, 84-104, 182-230 (start, handler,
    [deleteOldDMs], [deleteRequestDMs]).  Twitter is the environment: it may
    refuse any call. *)
From Coq Require Import List NArith ZArith Lia Bool Arith.
From Verif Require Import Base Utils Crypto Tree STR PAD Protocol Json JsonText Wire Text Bot.
Import ListNotations.
Local Open Scope nat_scope.

(** A direct message: number, sender and text. *)
(** application/bots/twitterbot.go:84-118, 184-227 *)
Record DM := mkDM { dm_id : N; dm_from : bytes; dm_text : bytes }.

(** ** Start: deleteOldDMs *)

(** One turn of the loop :190-206 as the environment plays it: the messages
    that arrived since the last one; whether [Get] succeeds (when it fails it
    returns no messages); which [Destroy] calls succeed. *)
Record turn := mkTurn { tn_arrive : list N; tn_get : bool; tn_destroy : N -> bool }.
(** :189 *)
Definition Count : nat := 200.
(** application/bots/twitterbot.go:84-118, 184-227 *)
Definition mem (i : N) (l : list N) : bool := existsb (N.eqb i) l.
(** [deleteOldDMs] :185-207 on the messages received and not destroyed (newest
    first; [Get] returns the newest 200 of those sent TO the account, see
    dev.twitter.com/rest/reference/get/direct_messages).  Result: the messages
    left, those destroyed, and whether the call has returned by the end of the
    given turns. *)
Fixpoint deleteOldDMs (turns : list turn) (box : list N) : list N * list N * bool :=
  match turns with
  | [] => (box, [], false)
  | t :: turns' =>
      let box1 := tn_arrive t ++ box in
      let dms := if tn_get t then firstn Count box1 else [] in     (* :191-194 *)
      match dms with
      | [] => (box1, [], true)                                     (* :195-198 *)
      | _ :: _ =>
          let gone := filter (tn_destroy t) dms in                 (* :199-205 *)
          let '(rest, destroyed, returned) := deleteOldDMs turns' (filter (fun i => negb (mem i gone)) box1) in
          (rest, gone ++ destroyed, returned)
      end
  end.

(** ** Running: the handler *)

(** A message from the stream: when it arrives (seconds), what it is, how long
    the server takes, and the number of the reply ([None]: sending failed; the
    library then returns a message with number 0, not nil). *)
(** application/bots/twitterbot.go:84-118, 184-227 *)
Record incoming := mkIncoming { in_time : N; in_dm : DM; in_service : N; in_reply : option N }.
(** :85-104, one message after the other ([demux.HandleChan], one goroutine):
    the time when the handler is free again and the destructions it orders
    (time, number), :210-230 with a timer of 300 seconds, :97 a pause of 5. *)
Definition handled (handle : bytes) (now : N) (x : incoming) : N * list (N * N) :=
  let start := N.max now (in_time x) in
  if EqualFold (dm_from (in_dm x)) handle then (start, [])
  else match strip_prefix messagePrefix (dm_text (in_dm x)) with
       | None => (start, [((start + 300)%N, dm_id (in_dm x))])
       | Some _ =>
           let done := (start + in_service x + 5)%N in
           (done, [((done + 300)%N, dm_id (in_dm x)); ((done + 300)%N, match in_reply x with Some i => i | None => 0%N end)])
       end.
(** For each message of the stream, when the handler was done with it and what
    it ordered. *)
(** application/bots/twitterbot.go:84-118, 184-227 *)
Fixpoint session (handle : bytes) (now : N) (l : list incoming) : list (incoming * N * list (N * N)) :=
  match l with
  | [] => []
  | x :: l' => let '(done, tasks) := handled handle now x in (x, done, tasks) :: session handle done l'
  end.
(** application/bots/twitterbot.go:84-118, 184-227 *)
Definition orders (s : list (incoming * N * list (N * N))) : list (N * N) := flat_map snd s.
(** What has been destroyed when the process is stopped at time [stop]: the
    timers live in the process. *)
(** application/bots/twitterbot.go:84-118, 184-227 *)
Definition carried_out (stop : N) (l : list (N * N)) : list N := map snd (filter (fun x => N.leb (fst x) stop) l).
