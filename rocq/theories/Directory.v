(** Model of the key directory: protocol/directory/directory.go. *)
From Coq Require Import List NArith ZArith Lia Bool Arith.
From Verif Require Import Base Utils Crypto Tree STR PAD Protocol.
Import ListNotations.

Section Directory.
  Context {C : Crypto}.

  (** protocol/directory/directory.go:27-32 *)
  Record Directory := mkDirectory {
    dr_pad : PAD Policies; dr_useTBs : bool;
    dr_tbs : list (bytes * TemporaryBinding); dr_pol : Policies }.

  (** protocol/directory/directory.go:42-64 [New].  [vrfKey.Public()] cannot
      fail for a well-formed private key.  [r1], [r2]: entropy for the PAD. *)
  Definition Directory_New (deadline : N) (vrfKey signKey : bytes) (dirSize : nat) (useTBs : bool)
    (r1 r2 : option bytes) : result Directory :=
    if useTBs then
      let pol := NewPolicies deadline (vrf_pub vrfKey) in
      do o <- NewPAD Policies_Serialize pol signKey vrfKey dirSize r1 r2;
      match o with
      | None => Panic
      | Some pad => Ok (mkDirectory pad useTBs [] pol)
      end
    else Panic.

  (** protocol/directory/directory.go:70-76 [Update] *)
  Definition Directory_Update (d : Directory) : Directory :=
    mkDirectory (Update Policies_Serialize (dr_pad d) (Some (dr_pol d))) (dr_useTBs d) [] (dr_pol d).

  (** protocol/directory/directory.go:80-82 [SetPolicies] *)
  Definition SetPolicies (d : Directory) (deadline : N) : Directory :=
    mkDirectory (dr_pad d) (dr_useTBs d) (dr_tbs d) (NewPolicies deadline (pol_vrf (dr_pol d))).

  (** protocol/directory/directory.go:86-88 [EpochDeadline] *)
  Definition EpochDeadline (d : Directory) : N := pol_deadline (st_ad (pd_latest (dr_pad d))).

  (** protocol/directory/directory.go:91-93 [LatestSTR] *)
  Definition LatestSTR (d : Directory) : DirSTR := NewDirSTR (pd_latest (dr_pad d)).
  (** the epoch of protocol/directory/directory.go:91-93 *)
  Definition latestEpoch (d : Directory) : N := s_epoch (st_body (pd_latest (dr_pad d))).

  (** protocol/directory/directory.go:98-105 [NewTB] *)
  Definition NewTB (d : Directory) (name key : bytes) : TemporaryBinding :=
    let index := Index (dr_pad d) name in
    mkTB index key (PAD_Sign (dr_pad d) [s_sig (st_body (pd_latest (dr_pad d))); index; key]).

  (** [len(s) <= 0] *)
  (** protocol/directory/directory.go:131 and the like *)
  Definition is_nil (b : bytes) : bool := match b with [] => true | _ => false end.

  (** [bytes.Equal(ap.LookupIndex, ap.Leaf.Index)] *)
  (** protocol/directory/directory.go:141, 199, 257 *)
  Definition leaf_matches (ap : AuthPath) : result bool :=
    match ap_leaf ap with
    | None => Panic
    | Some leaf => Ok (beq (ap_lookup ap) (pn_index leaf))
    end.

  (** protocol/directory/directory.go:129-165 [Register]; [r]: entropy. *)
  Definition Register (d : Directory) (r : option bytes) (name key : bytes) : result (Directory * Response) :=
    if is_nil name || is_nil key then Ok (d, NewErrorResponse ErrMalformedMessage)
    else
      do o <- Lookup (dr_pad d) name;
      match o with
      | None => Ok (d, NewErrorResponse ErrDirectory)
      | Some ap =>
          do found <- leaf_matches ap;
          if found : bool then Ok (d, NewRegistrationProof ap (LatestSTR d) None ReqNameExisted)
          else
            match (if dr_useTBs d then map_get beq name (dr_tbs d) else None) with
            | Some tb => Ok (d, NewRegistrationProof ap (LatestSTR d) (Some tb) ReqNameExisted)
            | None =>
                let tb := if dr_useTBs d then Some (NewTB d name key) else None in
                do o <- PAD_Set (dr_pad d) r name key;
                match o with
                | None => Ok (d, NewErrorResponse ErrDirectory)
                | Some pad =>
                    let tbs := match tb with Some tb => map_set beq name tb (dr_tbs d) | None => dr_tbs d end in
                    let d' := mkDirectory pad (dr_useTBs d) tbs (dr_pol d) in
                    Ok (d', NewRegistrationProof ap (LatestSTR d') tb ReqSuccess)
                end
            end
      end.

  (** protocol/directory/directory.go:187-209 [KeyLookup] *)
  Definition KeyLookup (d : Directory) (name : bytes) : result Response :=
    if is_nil name then Ok (NewErrorResponse ErrMalformedMessage)
    else
      do o <- Lookup (dr_pad d) name;
      match o with
      | None => Ok (NewErrorResponse ErrDirectory)
      | Some ap =>
          do found <- leaf_matches ap;
          if found : bool then Ok (NewKeyLookupProof ap (LatestSTR d) None ReqSuccess)
          else
            match (if dr_useTBs d then map_get beq name (dr_tbs d) else None) with
            | Some tb => Ok (NewKeyLookupProof ap (LatestSTR d) (Some tb) ReqSuccess)
            | None => Ok (NewKeyLookupProof ap (LatestSTR d) None ReqNameNotFound)
            end
      end.

  (** protocol/str.go:13-18 [NewDirSTR] on a possibly nil pointer *)
  Definition NewDirSTR' (s : option (SignedTreeRoot Policies)) : result DirSTR :=
    match s with None => Panic | Some s => Ok (NewDirSTR s) end.

  (** protocol/directory/directory.go:236-261 [KeyLookupInEpoch] *)
  Definition KeyLookupInEpoch (d : Directory) (name : bytes) (epoch : N) : result Response :=
    if is_nil name || N.ltb (latestEpoch d) epoch then Ok (NewErrorResponse ErrMalformedMessage)
    else
      do o <- LookupInEpoch (dr_pad d) name epoch;
      match o with
      | None => Ok (NewErrorResponse ErrDirectory)
      | Some ap =>
          do eps <- epochs epoch (latestEpoch d);
          do strs <- mapM (fun ep => NewDirSTR' (GetSTR (dr_pad d) ep)) eps;
          do found <- leaf_matches ap;
          if found : bool then Ok (NewKeyLookupInEpochProof ap strs ReqSuccess)
          else Ok (NewKeyLookupInEpochProof ap strs ReqNameNotFound)
      end.

  (** protocol/directory/directory.go:296-305, the loop of [Monitor];
      [Ok None] is the early return of [ErrDirectory]. *)
  Fixpoint monitor_loop (d : Directory) (name : bytes) (eps : list N)
    : result (option (list AuthPath * list DirSTR)) :=
    match eps with
    | [] => Ok (Some ([], []))
    | ep :: eps' =>
        do o <- LookupInEpoch (dr_pad d) name ep;
        match o with
        | None => Ok None
        | Some ap =>
            do str <- NewDirSTR' (GetSTR (dr_pad d) ep);
            do o' <- monitor_loop d name eps';
            Ok (option_map (fun p => (ap :: fst p, str :: snd p)) o')
        end
    end.

  (** protocol/directory/directory.go:281-308 [Monitor] *)
  Definition Monitor (d : Directory) (name : bytes) (startEpoch endEpoch : N) : result Response :=
    if is_nil name || N.ltb (latestEpoch d) startEpoch || N.ltb endEpoch startEpoch
    then Ok (NewErrorResponse ErrMalformedMessage)
    else
      let endEp := if N.ltb (latestEpoch d) endEpoch then latestEpoch d else endEpoch in
      do eps <- epochs startEpoch endEp;
      do o <- monitor_loop d name eps;
      match o with
      | None => Ok (NewErrorResponse ErrDirectory)
      | Some (aps, strs) => Ok (NewMonitoringProof aps strs)
      end.

  (** protocol/directory/directory.go:326-345 [GetSTRHistory] *)
  Definition GetSTRHistory (d : Directory) (startEpoch endEpoch : N) : result Response :=
    if N.ltb (latestEpoch d) startEpoch || N.ltb endEpoch startEpoch
    then Ok (NewErrorResponse ErrMalformedMessage)
    else
      let endEp := if N.ltb (latestEpoch d) endEpoch then latestEpoch d else endEpoch in
      do eps <- epochs startEpoch endEp;
      do strs <- mapM (fun ep => NewDirSTR' (GetSTR (dr_pad d) ep)) eps;
      Ok (NewSTRHistoryRange (map Some strs)).
End Directory.
