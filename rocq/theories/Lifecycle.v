(** Model of starting, serving and shutting down: application/serverbase.go
    (goroutines of [ListenAndHandle], [acceptRequests], [acceptClient],
    [RunInBackground], [EpochUpdate], [HotReload], and [Shutdown]).

    Each goroutine is a program counter; any goroutine may move at any time.
    What handlers do to the directory is left out here (see Conc.v and
    Server.v): only how long they run and which lock they take. *)
From Coq Require Import List Lia Bool Arith.
Import ListNotations.

(** sync.WaitGroup of the Go library: the counter and the number of waiters in
    one atomic word, and a semaphore on which the waiters sleep. *)
(** sync.WaitGroup, application/serverbase.go:56-70 (waitStop, waitCloseConn) *)
Record wg := mkWg { cnt : nat; waiting : nat; sema : nat }.
(** Add(1): panics ("Add called concurrently with Wait") if the counter was zero
    while somebody waits. *)
(** sync.WaitGroup, application/serverbase.go:56-70 (waitStop, waitCloseConn) *)
Definition wg_add (w : wg) : option wg :=
  if Nat.eqb (cnt w) 0 && negb (Nat.eqb (waiting w) 0) then None else Some (mkWg (S (cnt w)) (waiting w) (sema w)).
(** Done, first part: decrement; panics below zero.  If the counter reaches zero
    and somebody waits, the second part must follow; it remembers how many waited. *)
(** sync.WaitGroup, application/serverbase.go:56-70 (waitStop, waitCloseConn) *)
Definition wg_done (w : wg) : option (wg * option nat) :=
  match cnt w with
  | O => None
  | S c => Some (mkWg c (waiting w) (sema w), if Nat.eqb c 0 && negb (Nat.eqb (waiting w) 0) then Some (waiting w) else None)
  end.
(** Done, second part: panics if the word changed in between; otherwise it is
    reset and the waiters are released. *)
(** sync.WaitGroup, application/serverbase.go:56-70 (waitStop, waitCloseConn) *)
Definition wg_reset (saved : nat) (w : wg) : option wg :=
  if Nat.eqb (cnt w) 0 && Nat.eqb (waiting w) saved then Some (mkWg 0 0 (sema w + saved)) else None.
(** Wait: returns at once if the counter is zero, otherwise registers and sleeps. *)
(** sync.WaitGroup, application/serverbase.go:56-70 (waitStop, waitCloseConn) *)
Definition wg_wait (w : wg) : option wg :=
  if Nat.eqb (cnt w) 0 then None else Some (mkWg (cnt w) (S (waiting w)) (sema w)).
(** A released waiter panics ("reused before previous Wait has returned") if the
    word is not zero any more. *)
(** sync.WaitGroup, application/serverbase.go:56-70 (waitStop, waitCloseConn) *)
Definition wg_woken (w : wg) : option wg :=
  if Nat.eqb (cnt w) 0 && Nat.eqb (waiting w) 0 then Some (mkWg (cnt w) (waiting w) (pred (sema w))) else None.

(** What a client makes its handler do: steps of reading and decoding; then, if
    the request is acceptable, whether it takes the write lock and the steps it
    computes under the lock; then steps of answering (none if the connection
    failed). *)
(** the goroutines of application/serverbase.go:93-308 and application/server/server.go:106-143 *)
Record script := mkScript { s_read : nat; s_req : option (bool * nat); s_ans : nat }.

(** acceptRequests (serverbase.go:142-179) and the end of ListenAndHandle
    (:97-101): [LTop] before the select (:156), [LAccept] in Accept (:162),
    [LGot] between Accept and waitCloseConn.Add (:170-173), [LWait] before
    waitCloseConn.Wait (:158), [LSleep] asleep in it, [LClose] before the
    deferred ln.Close (:145), [LFinish] before waitStop.Done (:100), [LReset] in
    the second part of it. *)
Inductive lpc := LTop | LAccept | LGot (sc : script) | LWait | LSleep | LClose | LFinish | LReset (saved : nat) | LEnd.
(** acceptClient (:195-250) and its goroutine (:174-177): [HRead] reading and
    decoding, [HWant] waiting for the lock, [HHold] holding it, [HAns]
    answering, [HClose] before the deferred conn.Close, [HFinish] before
    waitCloseConn.Done. *)
Inductive hpc :=
| HRead (n : nat) (req : option (bool * nat)) (ans : nat) | HWant (wr : bool) (n ans : nat) | HHold (wr : bool) (n ans : nat)
| HAns (n : nat) | HClose | HFinish | HReset (saved : nat) | HEnd.
(** EpochUpdate (:265-277) or HotReload (:280-291) inside RunInBackground
    (:255-261): [BSelect] at the select, [BWant] waiting for the write lock,
    [BHold] working under it, [BFinish] before waitStop.Done. *)
Inductive bpc := BSelect | BWant (n : nat) | BHold (n : nat) | BFinish | BReset (saved : nat) | BEnd.

(** Goroutines.  A listener with the flag set by its helper goroutine (:146-153:
    after stop is closed, the helper sets the listener's deadline to now, so that
    Accept returns with a timeout); the handler of a connection accepted by the
    listener with number [owner]; a background loop. *)
Inductive thr :=
| TL (fired : bool) (p : lpc)
| TH (owner : nat) (p : hpc)
| TB (p : bpc).

(** The goroutine that calls Run and then Shutdown (:304-308).  [MStart] in Run,
    with the goroutines still to be started; [MRun] serving, Shutdown not called; [MWait] stop is closed, before
    waitStop.Wait, [MSleep] asleep in it, [MRet] returned. *)
Inductive mpc := MStart (todo : list thr) | MRun | MWait | MSleep | MRet.

(** the goroutines of application/serverbase.go:93-308 and application/server/server.go:106-143 *)
Definition holds (t : thr) : bool := match t with TH _ (HHold _ _ _) | TB (BHold _) => true | _ => false end.
(** the goroutines of application/serverbase.go:93-308 and application/server/server.go:106-143 *)
Definition holds_write (t : thr) : bool := match t with TH _ (HHold true _ _) | TB (BHold _) => true | _ => false end.
(** the goroutines of application/serverbase.go:93-308 and application/server/server.go:106-143 *)
Fixpoint count {A} (f : A -> bool) (l : list A) : nat :=
  match l with [] => 0 | x :: l' => (if f x then 1 else 0) + count f l' end.
(** The RWMutex (:62) *)
Definition can_lock (wr : bool) (ts : list thr) : bool :=
  if wr then Nat.eqb (count holds ts) 0 else Nat.eqb (count holds_write ts) 0.

(** Who makes a step happen: the program itself, the network (a client connects,
    Accept fails), the clock or a signal (an epoch ends, a reload is requested),
    or the caller of Shutdown. *)
(** the goroutines of application/serverbase.go:93-308 and application/server/server.go:106-143 *)
Inductive label := Sys | Net | Tick | Call.

(** One step of one goroutine with number [i]; [w1] is waitStop and [w2] is
    waitCloseConn.  The outcome is [None] if it panics, otherwise the new
    goroutine, the new wait groups and perhaps a new goroutine. *)
(** the goroutines of application/serverbase.go:93-308 and application/server/server.go:106-143 *)
Definition outcome := option (thr * wg * wg * option thr).
(** the goroutines of application/serverbase.go:93-308 and application/server/server.go:106-143 *)
Inductive local (stopped : bool) (ts : list thr) (i : nat) (w1 w2 : wg) : thr -> label -> outcome -> Prop :=
(* :146-153 *)
| l_fire p : stopped = true -> local stopped ts i w1 w2 (TL false p) Sys (Some (TL true p, w1, w2, None))
(* :156-161: a closed channel is always ready, default is taken otherwise *)
| l_top_stop f : stopped = true -> local stopped ts i w1 w2 (TL f LTop) Sys (Some (TL f LWait, w1, w2, None))
| l_top_go f : stopped = false -> local stopped ts i w1 w2 (TL f LTop) Sys (Some (TL f LAccept, w1, w2, None))
(* :162-169 *)
| l_timeout : local stopped ts i w1 w2 (TL true LAccept) Sys (Some (TL true LTop, w1, w2, None))
| l_error f : local stopped ts i w1 w2 (TL f LAccept) Net (Some (TL f LTop, w1, w2, None))
| l_conn f sc : local stopped ts i w1 w2 (TL f LAccept) Net (Some (TL f (LGot sc), w1, w2, None))
(* :173-177; Add and go in one step *)
| l_add f sc w2' : wg_add w2 = Some w2' ->
    local stopped ts i w1 w2 (TL f (LGot sc)) Sys (Some (TL f LTop, w1, w2', Some (TH i (HRead (s_read sc) (s_req sc) (s_ans sc)))))
| l_add_panic f sc : wg_add w2 = None -> local stopped ts i w1 w2 (TL f (LGot sc)) Sys None
(* :158 *)
| l_wait_ret f : wg_wait w2 = None -> local stopped ts i w1 w2 (TL f LWait) Sys (Some (TL f LClose, w1, w2, None))
| l_wait f w2' : wg_wait w2 = Some w2' -> local stopped ts i w1 w2 (TL f LWait) Sys (Some (TL f LSleep, w1, w2', None))
| l_woken f w2' : sema w2 <> 0 -> wg_woken w2 = Some w2' -> local stopped ts i w1 w2 (TL f LSleep) Sys (Some (TL f LClose, w1, w2', None))
| l_woken_panic f : sema w2 <> 0 -> wg_woken w2 = None -> local stopped ts i w1 w2 (TL f LSleep) Sys None
(* :145 *)
| l_close f : local stopped ts i w1 w2 (TL f LClose) Sys (Some (TL f LFinish, w1, w2, None))
(* :100 *)
| l_done f w1' r : wg_done w1 = Some (w1', r) ->
    local stopped ts i w1 w2 (TL f LFinish) Sys (Some (TL f (match r with Some k => LReset k | None => LEnd end), w1', w2, None))
| l_done_panic f : wg_done w1 = None -> local stopped ts i w1 w2 (TL f LFinish) Sys None
| l_reset f k w1' : wg_reset k w1 = Some w1' -> local stopped ts i w1 w2 (TL f (LReset k)) Sys (Some (TL f LEnd, w1', w2, None))
| l_reset_panic f k : wg_reset k w1 = None -> local stopped ts i w1 w2 (TL f (LReset k)) Sys None
(* acceptClient *)
| h_read o n r a : local stopped ts i w1 w2 (TH o (HRead (S n) r a)) Sys (Some (TH o (HRead n r a), w1, w2, None))
| h_bad o a : local stopped ts i w1 w2 (TH o (HRead 0 None a)) Sys (Some (TH o (HAns a), w1, w2, None))
| h_req o wr n a : local stopped ts i w1 w2 (TH o (HRead 0 (Some (wr, n)) a)) Sys (Some (TH o (HWant wr n a), w1, w2, None))
| h_lock o wr n a : can_lock wr ts = true -> local stopped ts i w1 w2 (TH o (HWant wr n a)) Sys (Some (TH o (HHold wr n a), w1, w2, None))
| h_work o wr n a : local stopped ts i w1 w2 (TH o (HHold wr (S n) a)) Sys (Some (TH o (HHold wr n a), w1, w2, None))
| h_unlock o wr a : local stopped ts i w1 w2 (TH o (HHold wr 0 a)) Sys (Some (TH o (HAns a), w1, w2, None))
| h_ans o n : local stopped ts i w1 w2 (TH o (HAns (S n))) Sys (Some (TH o (HAns n), w1, w2, None))
| h_answered o : local stopped ts i w1 w2 (TH o (HAns 0)) Sys (Some (TH o HClose, w1, w2, None))
| h_close o : local stopped ts i w1 w2 (TH o HClose) Sys (Some (TH o HFinish, w1, w2, None))
| h_done o w2' r : wg_done w2 = Some (w2', r) ->
    local stopped ts i w1 w2 (TH o HFinish) Sys (Some (TH o (match r with Some k => HReset k | None => HEnd end), w1, w2', None))
| h_done_panic o : wg_done w2 = None -> local stopped ts i w1 w2 (TH o HFinish) Sys None
| h_reset o k w2' : wg_reset k w2 = Some w2' -> local stopped ts i w1 w2 (TH o (HReset k)) Sys (Some (TH o HEnd, w1, w2', None))
| h_reset_panic o k : wg_reset k w2 = None -> local stopped ts i w1 w2 (TH o (HReset k)) Sys None
(* EpochUpdate, HotReload: if both channels are ready, select takes any *)
| b_tick n : local stopped ts i w1 w2 (TB BSelect) Tick (Some (TB (BWant n), w1, w2, None))
| b_stop : stopped = true -> local stopped ts i w1 w2 (TB BSelect) Sys (Some (TB BFinish, w1, w2, None))
| b_lock n : can_lock true ts = true -> local stopped ts i w1 w2 (TB (BWant n)) Sys (Some (TB (BHold n), w1, w2, None))
| b_work n : local stopped ts i w1 w2 (TB (BHold (S n))) Sys (Some (TB (BHold n), w1, w2, None))
| b_unlock : local stopped ts i w1 w2 (TB (BHold 0)) Sys (Some (TB BSelect, w1, w2, None))
| b_done w1' r : wg_done w1 = Some (w1', r) ->
    local stopped ts i w1 w2 (TB BFinish) Sys (Some (TB (match r with Some k => BReset k | None => BEnd end), w1', w2, None))
| b_done_panic : wg_done w1 = None -> local stopped ts i w1 w2 (TB BFinish) Sys None
| b_reset k w1' : wg_reset k w1 = Some w1' -> local stopped ts i w1 w2 (TB (BReset k)) Sys (Some (TB BEnd, w1', w2, None))
| b_reset_panic k : wg_reset k w1 = None -> local stopped ts i w1 w2 (TB (BReset k)) Sys None.

(** The process: the channel stop, the two wait groups, the goroutines, and the
    goroutine that calls Shutdown; or it has crashed. *)
(** the goroutines of application/serverbase.go:93-308 and application/server/server.go:106-143 *)
Record st := mkSt { closed : bool; ws : wg; wc : wg; ths : list thr; main : mpc }.
(** the goroutines of application/serverbase.go:93-308 and application/server/server.go:106-143 *)
Inductive proc := Up (s : st) | Crashed.

(** the goroutines of application/serverbase.go:93-308 and application/server/server.go:106-143 *)
Definition spawned (o : option thr) : list thr := match o with Some t => [t] | None => [] end.
(** the goroutines of application/serverbase.go:93-308 and application/server/server.go:106-143 *)
Inductive step : proc -> label -> proc -> Prop :=
| s_thread c w1 w2 a t b m lab t' w1' w2' n :
    local c (a ++ t :: b) (length a) w1 w2 t lab (Some (t', w1', w2', n)) ->
    step (Up (mkSt c w1 w2 (a ++ t :: b) m)) lab (Up (mkSt c w1' w2' (a ++ t' :: b ++ spawned n) m))
| s_panic c w1 w2 a t b m lab :
    local c (a ++ t :: b) (length a) w1 w2 t lab None ->
    step (Up (mkSt c w1 w2 (a ++ t :: b) m)) lab Crashed
(* :96-97, :256-257: waitStop.Add(1); go *)
| s_start c w1 w2 ts t todo w1' : wg_add w1 = Some w1' -> step (Up (mkSt c w1 w2 ts (MStart (t :: todo)))) Sys (Up (mkSt c w1' w2 (ts ++ [t]) (MStart todo)))
| s_start_panic c w1 w2 ts t todo : wg_add w1 = None -> step (Up (mkSt c w1 w2 ts (MStart (t :: todo)))) Sys Crashed
| s_started c w1 w2 ts : step (Up (mkSt c w1 w2 ts (MStart []))) Sys (Up (mkSt c w1 w2 ts MRun))
(* :305 *)
| s_shutdown w1 w2 ts : step (Up (mkSt false w1 w2 ts MRun)) Call (Up (mkSt true w1 w2 ts MWait))
(* :306 *)
| s_wait_ret c w1 w2 ts : wg_wait w1 = None -> step (Up (mkSt c w1 w2 ts MWait)) Sys (Up (mkSt c w1 w2 ts MRet))
| s_wait c w1 w2 ts w1' : wg_wait w1 = Some w1' -> step (Up (mkSt c w1 w2 ts MWait)) Sys (Up (mkSt c w1' w2 ts MSleep))
| s_woken c w1 w2 ts w1' : sema w1 <> 0 -> wg_woken w1 = Some w1' -> step (Up (mkSt c w1 w2 ts MSleep)) Sys (Up (mkSt c w1' w2 ts MRet))
| s_woken_panic c w1 w2 ts : sema w1 <> 0 -> wg_woken w1 = None -> step (Up (mkSt c w1 w2 ts MSleep)) Sys Crashed
(* a second call of Shutdown closes a closed channel *)
| s_again w1 w2 ts : step (Up (mkSt true w1 w2 ts MRet)) Call Crashed.

(** the goroutines of application/serverbase.go:93-308 and application/server/server.go:106-143 *)
Inductive steps : proc -> proc -> Prop :=
| steps_refl x : steps x x
| steps_step x lab y z : step x lab y -> steps y z -> steps x z.

(** ConiksServer.Run (application/server/server.go:106-129) starts the epoch
    loop, one listener for each of the [n] addresses, and the reload loop. *)
Definition server_goroutines (n : nat) : list thr := TB BSelect :: repeat (TL false LTop) n ++ [TB BSelect].
(** the goroutines of application/serverbase.go:93-308 and application/server/server.go:106-143 *)
Definition before_run (n : nat) : proc :=
  Up (mkSt false (mkWg 0 0 0) (mkWg 0 0 0) [] (MStart (server_goroutines n))).
(** What a server with [n] addresses can come to. *)
(** the goroutines of application/serverbase.go:93-308 and application/server/server.go:106-143 *)
Definition reachable (n : nat) (x : proc) : Prop := steps (before_run n) x.
