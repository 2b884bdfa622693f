(** Model of the key server: application/server/{server,config}.go,
    application/serverbase.go, application/config.go ([SaveSTR],
    [LoadInitSTR]). *)
From Coq Require Import List NArith ZArith Lia Bool Arith.
From Verif Require Import Base Utils Crypto Tree STR PAD Protocol Directory DirSpec Json Wire Conc.
Import ListNotations.

Arguments Ret {Mem Resp}. Arguments Abort {Mem Resp}.
Arguments GetM {Mem Resp}. Arguments PutM {Mem Resp}.
Arguments run {Mem Resp}.

(** ** Configuration *)

(** application/server/policies.go:12-18 (keys already loaded) *)
Record PolicyConf := mkPolicyConf { pc_deadline : N; pc_vrf : bytes; pc_sign : bytes }.
(** application/server/server.go:21-24: the pointer to the application address
    (identity: a number) and the registration flag. *)
Record Address := mkAddress { ad_ptr : nat; ad_allow : bool }.
(** application/server/config.go:17-30, without logger and paths.
    [cf_deadline] is the top-level [EpochDeadline] of :29. *)
Record Config := mkConfig {
  cf_addrs : list Address; cf_hist : nat; cf_pol : PolicyConf; cf_deadline : N }.
(** application/server/config.go:37-50 [NewConfig]: leaves :29 at its zero
    value. *)
Definition NewConfig (addrs : list Address) (hist : nat) (pol : PolicyConf) : Config :=
  mkConfig addrs hist pol 0.

(** ** Permissions *)

(** A Go [map[*ServerAddress]map[int]bool]; absent entries read as false. *)
(** application/serverbase.go:56-70 (acceptableReqs) *)
Definition permtable := nat -> Z -> bool.
(** application/server/server.go:44-51, one iteration: a fresh inner map. *)
Definition perm_step (p : permtable) (a : Address) : permtable :=
  fun ptr t =>
    if Nat.eqb ptr (ad_ptr a) then
      if Z.eqb t KeyLookupType || Z.eqb t KeyLookupInEpochType || Z.eqb t MonitoringType then true
      else if Z.eqb t RegistrationType then ad_allow a
      else false
    else p ptr t.
(** application/server/server.go:42-51 *)
Definition permissions (addrs : list Address) : permtable := fold_left perm_step addrs (fun _ _ => false).

(** application/serverbase.go:185-193 [checkRequestType]: true = nil error. *)
Definition checkRequestType (p : permtable) (addr : nat) (t : Z) : bool := p addr t.

(** application/serverbase.go:206-214: a message is either answered at once
    with [malformedClientMsg] (application/encoding.go:110-116: always
    ErrMalformedMessage) or becomes a request for the handler.  [None]: the
    up to 8192 bytes read are not a JSON text. *)
Definition accept (p : permtable) (addr : nat) (msg : option json) : Response + Request :=
  match obind msg UnmarshalRequest with
  | None => inl (NewErrorResponse ErrMalformedMessage)
  | Some q => if checkRequestType p addr (q_type q) then inr q
              else inl (NewErrorResponse ErrMalformedMessage)
  end.

(** application/serverbase.go:216-221 *)
Definition takes_read_lock (t : Z) : bool :=
  Z.eqb t KeyLookupType || Z.eqb t KeyLookupInEpochType || Z.eqb t MonitoringType.

Section Server.
  Context {C : Crypto}.

  (** application/server/server.go:80-101 [HandleRequests], run alone; [r] is
      the entropy for a registration. *)
  Definition HandleRequests (d : Directory) (r : option bytes) (q : Request) : result (Directory * Response) :=
    let bad := Ok (d, NewErrorResponse ErrMalformedMessage) in
    if Z.eqb (q_type q) RegistrationType then
      match q_body q with WRegistration n k _ _ => Register d r n k | _ => bad end
    else if Z.eqb (q_type q) KeyLookupType then
      match q_body q with WKeyLookup n => do x <- KeyLookup d n; Ok (d, x) | _ => bad end
    else if Z.eqb (q_type q) KeyLookupInEpochType then
      match q_body q with WKeyLookupInEpoch n e => do x <- KeyLookupInEpoch d n e; Ok (d, x) | _ => bad end
    else if Z.eqb (q_type q) MonitoringType then
      match q_body q with WMonitoring n s e => do x <- Monitor d n s e; Ok (d, x) | _ => bad end
    else bad.

  (** ** The handlers as step-by-step programs over the shared directory.
      Every access to a mutable field is a separate step.  In continuation
      style: the last argument says what happens with the value read. *)
  (** protocol/directory/directory.go:129-345, application/server/server.go:80-143 *)
  Definition P := prog Directory (option Response).

  (** [pad.latestSTR] *)
  (** merkletree/pad.go:146-148 *)
  Definition k_latest (k : SignedTreeRoot Policies -> P) : P := GetM (fun d => k (pd_latest (dr_pad d))).
  (** merkletree/pad.go:138-143 *)
  Definition k_GetSTR (epoch : N) (k : option (SignedTreeRoot Policies) -> P) : P :=
    k_latest (fun s =>
      if N.leb (s_epoch (st_body s)) epoch then k_latest (fun s => k (Some s))
      else GetM (fun d => k (map_get N.eqb epoch (pd_snap (dr_pad d))))).
  (** no line of its own in /repo: a computation on values already read *)
  Definition k_result {A} (x : result A) (k : A -> P) : P := match x with Ok a => k a | Panic => Abort end.
  (** merkletree/pad.go:122-133; the snapshot trees are never written again
      (theorem C07, Prop_Heap.v) *)
  Definition k_LookupInEpoch (name : bytes) (epoch : N) (k : option AuthPath -> P) : P :=
    k_GetSTR epoch (fun o =>
      match o with
      | None => k None
      | Some str =>
          GetM (fun d =>
            let '(lookup, proof) := vrf_prove (pd_vrf (dr_pad d)) name in
            k_result (Get (st_tree str) lookup)
              (fun ap => k (Some (mkAP (ap_nonce ap) (ap_pruned ap) (ap_lookup ap) proof (ap_leaf ap)))))
      end).
  (** merkletree/pad.go:113-115 *)
  Definition k_Lookup (name : bytes) (k : option AuthPath -> P) : P :=
    k_latest (fun s => k_LookupInEpoch name (s_epoch (st_body s)) k).
  (** protocol/directory/directory.go:91-93 *)
  Definition k_LatestSTR (k : DirSTR -> P) : P := k_latest (fun s => k (NewDirSTR s)).
  (** [d.tbs[name]] under [d.useTBs] *)
  (** protocol/directory/directory.go:129-209 *)
  Definition k_tbs (name : bytes) (k : option TemporaryBinding -> P) : P :=
    GetM (fun d => if dr_useTBs d then GetM (fun d => k (map_get beq name (dr_tbs d))) else k None).
  (** no line of its own in /repo: a finished handler *)
  Definition answer (r : Response) : P := Ret (Some r).

  (** protocol/directory/directory.go:187-209 *)
  Definition p_KeyLookup (name : bytes) : P :=
    if is_nil name then answer (NewErrorResponse ErrMalformedMessage)
    else k_Lookup name (fun o =>
      match o with
      | None => answer (NewErrorResponse ErrDirectory)
      | Some ap =>
          k_result (leaf_matches ap) (fun found =>
            if found : bool then k_LatestSTR (fun s => answer (NewKeyLookupProof ap s None ReqSuccess))
            else k_tbs name (fun o =>
              match o with
              | Some tb => k_LatestSTR (fun s => answer (NewKeyLookupProof ap s (Some tb) ReqSuccess))
              | None => k_LatestSTR (fun s => answer (NewKeyLookupProof ap s None ReqNameNotFound))
              end))
      end).

  (** the loops of directory.go:251-254 and 296-305 *)
  Fixpoint k_strs (eps : list N) (k : list DirSTR -> P) : P :=
    match eps with
    | [] => k []
    | ep :: eps' => k_GetSTR ep (fun o => k_result (NewDirSTR' o) (fun s => k_strs eps' (fun l => k (s :: l))))
    end.
  (** protocol/directory/directory.go:236-261 *)
  Definition p_KeyLookupInEpoch (name : bytes) (epoch : N) : P :=
    k_latest (fun s =>
    if is_nil name || N.ltb (s_epoch (st_body s)) epoch then answer (NewErrorResponse ErrMalformedMessage)
    else k_latest (fun s => let endEp := s_epoch (st_body s) in
      k_LookupInEpoch name epoch (fun o =>
        match o with
        | None => answer (NewErrorResponse ErrDirectory)
        | Some ap =>
            k_result (epochs epoch endEp) (fun eps =>
              k_strs eps (fun strs =>
                k_result (leaf_matches ap) (fun found =>
                  if found : bool then answer (NewKeyLookupInEpochProof ap strs ReqSuccess)
                  else answer (NewKeyLookupInEpochProof ap strs ReqNameNotFound))))
        end))).

  (** protocol/directory/directory.go:281-308 *)
  Fixpoint k_monitor (name : bytes) (eps : list N) (k : option (list AuthPath * list DirSTR) -> P) : P :=
    match eps with
    | [] => k (Some ([], []))
    | ep :: eps' =>
        k_LookupInEpoch name ep (fun o =>
          match o with
          | None => k None
          | Some ap =>
              k_GetSTR ep (fun o => k_result (NewDirSTR' o) (fun s =>
                k_monitor name eps' (fun o => k (option_map (fun p => (ap :: fst p, s :: snd p)) o))))
          end)
    end.
  (** protocol/directory/directory.go:281-308 *)
  Definition p_Monitor (name : bytes) (startEpoch endEpoch : N) : P :=
    k_latest (fun s =>
    if is_nil name || N.ltb (s_epoch (st_body s)) startEpoch || N.ltb endEpoch startEpoch
    then answer (NewErrorResponse ErrMalformedMessage)
    else k_latest (fun s =>
      let k_end (k : N -> P) := if N.ltb (s_epoch (st_body s)) endEpoch
                                then k_latest (fun s => k (s_epoch (st_body s))) else k endEpoch in
      k_end (fun endEp =>
        k_result (epochs startEpoch endEp) (fun eps =>
          k_monitor name eps (fun o =>
            match o with
            | None => answer (NewErrorResponse ErrDirectory)
            | Some (aps, strs) => answer (NewMonitoringProof aps strs)
            end))))).

  (** Memory passing through arbitrary states [l] while a structure is being
      rebuilt in place. *)
  (** no line of its own in /repo: memory while protocol/directory/directory.go:70-76 runs *)
  Definition k_torn (l : list Directory) (k : P) : P := fold_right (fun d k => PutM (fun _ => d) k) k l.

  (** Field updates. *)
  (** protocol/directory/directory.go:70-76 *)
  Definition w_pad (f : PAD Policies -> PAD Policies) (d : Directory) : Directory :=
    mkDirectory (f (dr_pad d)) (dr_useTBs d) (dr_tbs d) (dr_pol d).
  (** protocol/directory/directory.go:98-164 *)
  Definition w_tbs (f : list (bytes * TemporaryBinding) -> list (bytes * TemporaryBinding)) (d : Directory) : Directory :=
    mkDirectory (dr_pad d) (dr_useTBs d) (f (dr_tbs d)) (dr_pol d).

  (** protocol/directory/directory.go:129-165.  [torn d]: the states the
      directory passes through while the tree insertion works in place. *)
  Definition p_Register (torn : Directory -> list Directory) (r : option bytes) (name key : bytes) : P :=
    if is_nil name || is_nil key then answer (NewErrorResponse ErrMalformedMessage)
    else k_Lookup name (fun o =>
      match o with
      | None => answer (NewErrorResponse ErrDirectory)
      | Some ap =>
          k_result (leaf_matches ap) (fun found =>
            if found : bool then k_LatestSTR (fun s => answer (NewRegistrationProof ap s None ReqNameExisted))
            else k_tbs name (fun o =>
              match o with
              | Some tb => k_LatestSTR (fun s => answer (NewRegistrationProof ap s (Some tb) ReqNameExisted))
              | None =>
                  GetM (fun d => let tb := if dr_useTBs d then Some (NewTB d name key) else None in
                  GetM (fun d =>
                    k_result (PAD_Set (dr_pad d) r name key) (fun o =>
                      match o with
                      | None => k_torn (torn d) (PutM (fun _ => d) (answer (NewErrorResponse ErrDirectory)))
                      | Some pad =>
                          k_torn (torn d) (
                          PutM (fun _ => w_pad (fun _ => pad) d) (
                          (match tb with
                           | Some tb => fun k => PutM (w_tbs (map_set beq name tb)) k
                           | None => fun k => k
                           end)
                          (k_LatestSTR (fun s => answer (NewRegistrationProof ap s tb ReqSuccess)))))
                      end)))
              end))
      end).

  (** protocol/directory/directory.go:70-76 with merkletree/pad.go:55-100,
      statement by statement: eviction; rehashing in place (torn); the new
      STR; the snapshot map; the epoch list; the associated data; and then
      the temporary bindings, one by one. *)
  Definition p_Update (torn : Directory -> list Directory) : P :=
    GetM (fun d =>
    let '(snap, loaded) := evict (dr_pad d) in
    PutM (w_pad (fun p => mkPAD (pd_sign p) (pd_vrf p) (pd_tree p) snap (pd_loaded p) (pd_cap p) (pd_latest p) (pd_ad p))) (
    PutM (w_pad (fun p => mkPAD (pd_sign p) (pd_vrf p) (pd_tree p) (pd_snap p) loaded (pd_cap p) (pd_latest p) (pd_ad p))) (
    GetM (fun d =>
    let p := dr_pad d in
    let epoch := add64 (s_epoch (st_body (pd_latest p))) 1 in
    let prevHash := Digest [s_sig (st_body (pd_latest p))] in
    let '(tree, str) := signTreeRoot Policies_Serialize (pd_sign p) (pd_ad p) (pd_tree p) epoch prevHash in
    k_torn (torn d) (
    PutM (fun _ => w_pad (fun p => mkPAD (pd_sign p) (pd_vrf p) tree (pd_snap p) (pd_loaded p) (pd_cap p) (pd_latest p) (pd_ad p)) d) (
    PutM (w_pad (fun p => mkPAD (pd_sign p) (pd_vrf p) (pd_tree p) (pd_snap p) (pd_loaded p) (pd_cap p) str (pd_ad p))) (
    PutM (w_pad (fun p => mkPAD (pd_sign p) (pd_vrf p) (pd_tree p) (map_set N.eqb epoch str (pd_snap p)) (pd_loaded p) (pd_cap p) (pd_latest p) (pd_ad p))) (
    PutM (w_pad (fun p => mkPAD (pd_sign p) (pd_vrf p) (pd_tree p) (pd_snap p) (pd_loaded p ++ [epoch]) (grow (length (pd_loaded p)) (pd_cap p)) (pd_latest p) (pd_ad p))) (
    GetM (fun d => let pol := dr_pol d in
    PutM (w_pad (fun p => mkPAD (pd_sign p) (pd_vrf p) (pd_tree p) (pd_snap p) (pd_loaded p) (pd_cap p) (pd_latest p) pol)) (
    GetM (fun d =>
    fold_right (fun (x : bytes * TemporaryBinding) k => PutM (w_tbs (@tl _)) k)
      (Ret None) (dr_tbs d))))))))))))).

  (** protocol/directory/directory.go:80-82; on reload,
      application/server/server.go:131-143: nothing happens if the
      configuration cannot be read ([None]). *)
  Definition p_Reload (deadline : option N) : P :=
    match deadline with
    | None => Ret None
    | Some dl => GetM (fun d =>
        PutM (fun d' => mkDirectory (dr_pad d') (dr_useTBs d') (dr_tbs d') (NewPolicies dl (pol_vrf (dr_pol d)))) (Ret None))
    end.

  (** ** The operations of the running server: a message on an address (with
      the entropy its handler would draw), a tick of the epoch timer, a
      reload signal. *)
  (** application/server/server.go:80-143 *)
  Inductive srv_op :=
  | OMsg (addr : nat) (msg : option json) (r : option bytes)
  | OTick
  | OReload (deadline : option N).

  (** What each operation does alone. *)
  (** application/server/server.go:80-143 *)
  Definition srv_sem (p : permtable) (op : srv_op) (d : Directory) : result (Directory * option Response) :=
    match op with
    | OMsg addr msg r =>
        match accept p addr msg with
        | inl resp => Ok (d, Some resp)
        | inr q => do (d', resp) <- HandleRequests d r q; Ok (d', Some resp)
        end
    | OTick => Ok (Directory_Update d, None)
    | OReload (Some dl) => Ok (SetPolicies d dl, None)
    | OReload None => Ok (d, None)
    end.

  (** The same as programs. *)
  (** application/server/server.go:80-101 *)
  Definition p_Handle (torn : Directory -> list Directory) (r : option bytes) (q : Request) : P :=
    let bad := answer (NewErrorResponse ErrMalformedMessage) in
    if Z.eqb (q_type q) RegistrationType then
      match q_body q with WRegistration n k _ _ => p_Register torn r n k | _ => bad end
    else if Z.eqb (q_type q) KeyLookupType then
      match q_body q with WKeyLookup n => p_KeyLookup n | _ => bad end
    else if Z.eqb (q_type q) KeyLookupInEpochType then
      match q_body q with WKeyLookupInEpoch n e => p_KeyLookupInEpoch n e | _ => bad end
    else if Z.eqb (q_type q) MonitoringType then
      match q_body q with WMonitoring n s e => p_Monitor n s e | _ => bad end
    else bad.
  (** application/serverbase.go:195-291 *)
  Definition srv_code (p : permtable) (torn : Directory -> list Directory) (op : srv_op) : P :=
    match op with
    | OMsg addr msg r =>
        match accept p addr msg with
        | inl resp => Ret (Some resp)
        | inr q => p_Handle torn r q
        end
    | OTick => p_Update torn
    | OReload dl => p_Reload dl
    end.
  (** application/serverbase.go:195-291 *)
  Definition srv_direct (p : permtable) (op : srv_op) : option (option Response) :=
    match op with
    | OMsg addr msg _ => match accept p addr msg with inl resp => Some (Some resp) | inr _ => None end
    | _ => None
    end.
  (** application/serverbase.go:195-291 *)
  Definition srv_reader (p : permtable) (op : srv_op) : bool :=
    match op with
    | OMsg addr msg _ => match accept p addr msg with inl _ => false | inr q => takes_read_lock (q_type q) end
    | _ => false
    end.

  (** ** Start-up *)

  (** application/serverbase.go:26-31 [NewEpochTimer]: seconds to nanoseconds
      in an int64. *)
  Definition toDuration (seconds : N) : Z :=
    let z := (Z.of_N seconds * 1000000000)%Z in
    ((z + 2 ^ 63) mod 2 ^ 64 - 2 ^ 63)%Z.
  (** application/serverbase.go:19-22 *)
  Record EpochTimer := mkTimer { tm_duration : Z }.
  (** application/serverbase.go:26-31 *)
  Definition NewEpochTimer (deadline : N) : EpochTimer := mkTimer (toDuration deadline).

  (** application/server/server.go:31-35 *)
  Record Server := mkServer { sv_perms : permtable; sv_dir : Directory; sv_timer : EpochTimer }.

  (** application/config.go:90-101 [SaveSTR] over a file store of JSON texts;
      the error (true = nil) is ignored by its caller. *)
  Definition store := bytes -> option json.
  (** application/config.go:90-101 *)
  Definition SaveSTR (f : store) (path : bytes) (s : DirSTR) : store * bool :=
    match f path with
    | Some _ => (f, false)
    | None => ((fun p => if beq p path then Some (enc_dirstr s) else f p), true)
    end.
  (** application/config.go:73-87 [LoadInitSTR]; [Ok None] is an error return;
      reading the epoch of an STR without body is a nil dereference. *)
  Definition LoadInitSTR (f : store) (path : bytes) : result (option DirSTR) :=
    match f path with
    | None => Ok None
    | Some j =>
        match dec_ptr f_dirstr zero_dirstr (Some zero_dirstr) j with
        | None => Ok None
        | Some None => Panic
        | Some (Some s) =>
            match d_body s with
            | None => Panic
            | Some b => if N.eqb (s_epoch b) 0 then Ok (Some s) else Ok None
            end
        end
    end.

  (** application/server/server.go:40-76 [NewConiksServer] *)
  Definition NewConiksServer (conf : Config) (strPath : bytes) (f : store) (r1 r2 : option bytes)
    : result (Server * store) :=
    do d <- Directory_New (pc_deadline (cf_pol conf)) (pc_vrf (cf_pol conf)) (pc_sign (cf_pol conf))
              (cf_hist conf) true r1 r2;
    let sv := mkServer (permissions (cf_addrs conf)) d (NewEpochTimer (cf_deadline conf)) in
    Ok (sv, fst (SaveSTR f strPath (LatestSTR d))).

  (** The running server after one operation: application/server/server.go:80-143
      touch the directory only. *)
  Definition sv_step (sv : Server) (op : srv_op) : result Server :=
    do (d, _) <- srv_sem (sv_perms sv) op (sv_dir sv); Ok (mkServer (sv_perms sv) d (sv_timer sv)).
  (** application/server/server.go:106-129 *)
  Fixpoint sv_run (sv : Server) (ops : list srv_op) : result Server :=
    match ops with
    | [] => Ok sv
    | op :: ops' => do sv' <- sv_step sv op; sv_run sv' ops'
    end.
End Server.

(** application/serverbase.go:265-277 [EpochUpdate] in time (nanoseconds): the
    timer fires at [fire]; the update starts once it has fired and the lock is
    free, at [fst x], and the timer is reset after it, at [snd x].  A timer
    with a negative duration fires at once. *)
Inductive epoch_loop (tm : EpochTimer) : Z -> list (Z * Z) -> Prop :=
| el_nil fire : epoch_loop tm fire []
| el_cons fire start reset l : (fire <= start)%Z -> (start <= reset)%Z ->
    epoch_loop tm (reset + Z.max 0 (tm_duration tm))%Z l -> epoch_loop tm fire ((start, reset) :: l).
(** The timer is started when it is made, at time [t0] (serverbase.go:28). *)
Definition epoch_updates (tm : EpochTimer) (t0 : Z) (l : list (Z * Z)) : Prop :=
  epoch_loop tm (t0 + Z.max 0 (tm_duration tm))%Z l.
