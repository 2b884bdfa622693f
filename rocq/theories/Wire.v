(** Model of application/encoding.go and application/client/encoding.go: the
    messages as JSON values. *)
From Coq Require Import List NArith ZArith Lia Bool Arith.
From Coq Require Import String.
From Verif Require Import Base Utils Crypto Tree STR PAD Protocol Json.
Import ListNotations.
Local Open Scope string_scope.
Local Open Scope nat_scope.
Notation length := List.length.

(** ** Requests *)

(** protocol/message.go:24-123: what the field [Request.Request] can hold.
    [WOther v]: an untyped value, the result of decoding into a nil
    interface. *)
Inductive body :=
| WRegistration (name key : bytes) (unsignedChange publicLookup : bool)
| WKeyLookup (name : bytes)
| WKeyLookupInEpoch (name : bytes) (epoch : N)
| WMonitoring (name : bytes) (startEpoch endEpoch : N)
| WAuditing (dirInitSTRHash : bytes) (startEpoch endEpoch : N)
| WSTRHistory (startEpoch endEpoch : N)
| WOther (v : json).

(** protocol/message.go:24-27 *)
Record Request := mkReq { q_type : Z; q_body : body }.

(** encoding/json matches member names case-insensitively; application/encoding.go:24-108 *)
Definition is_key (s : string) (k : bytes) : bool := EqualFold (key s) k.

(** encoding/json on the request structs; [omitempty] on the two flags
    (protocol/message.go:37-42). *)
Definition enc_body (b : body) : json :=
  match b with
  | WRegistration n k u p =>
      JObj ([(key "Username", enc_string n); (key "Key", enc_bytes k)]
            ++ (if u then [(key "AllowUnsignedKeychange", JBool true)] else [])
            ++ (if p then [(key "AllowPublicLookup", JBool true)] else []))
  | WKeyLookup n => JObj [(key "Username", enc_string n)]
  | WKeyLookupInEpoch n e => JObj [(key "Username", enc_string n); (key "Epoch", enc_N e)]
  | WMonitoring n s e => JObj [(key "Username", enc_string n); (key "StartEpoch", enc_N s); (key "EndEpoch", enc_N e)]
  | WAuditing h s e => JObj [(key "DirInitSTRHash", enc_arr32 h); (key "StartEpoch", enc_N s); (key "EndEpoch", enc_N e)]
  | WSTRHistory s e => JObj [(key "StartEpoch", enc_N s); (key "EndEpoch", enc_N e)]
  | WOther v => v
  end.

(** application/encoding.go:14-19 [MarshalRequest] *)
Definition MarshalRequest (t : Z) (b : body) : json :=
  JObj [(key "Type", JInt t); (key "Request", enc_body b)].

(** application/client/encoding.go:10-16 [CreateRegistrationMsg] *)
Definition CreateRegistrationMsg (name k : bytes) : json :=
  MarshalRequest RegistrationType (WRegistration name k false false).
(** application/client/encoding.go:20-25 [CreateKeyLookupMsg]: the body really
    is a RegistrationRequest with a nil key. *)
Definition CreateKeyLookupMsg (name : bytes) : json :=
  MarshalRequest KeyLookupType (WRegistration name [] false false).

(** Field decoders of the request structs. *)
(** no line of its own in /repo: optional results *)
Definition obind {A B} (x : option A) (f : A -> option B) : option B :=
  match x with Some a => f a | None => None end.
(** protocol/message.go:38-43 *)
Definition f_registration (c : bytes * bytes * bool * bool) (k : bytes) (v : json) :=
  let '(n, ky, u, p) := c in
  if is_key "Username" k then obind (dec_string n v) (fun n => Some (n, ky, u, p))
  else if is_key "Key" k then obind (dec_bytes v) (fun ky => Some (n, ky, u, p))
  else if is_key "AllowUnsignedKeychange" k then obind (dec_bool u v) (fun u => Some (n, ky, u, p))
  else if is_key "AllowPublicLookup" k then obind (dec_bool p v) (fun p => Some (n, ky, u, p))
  else Some c.
(** protocol/message.go:54-56 *)
Definition f_keylookup (n : bytes) (k : bytes) (v : json) :=
  if is_key "Username" k then dec_string n v else Some n.
(** protocol/message.go:68-71 *)
Definition f_lookupepoch (c : bytes * N) (k : bytes) (v : json) :=
  let '(n, e) := c in
  if is_key "Username" k then obind (dec_string n v) (fun n => Some (n, e))
  else if is_key "Epoch" k then obind (dec_uint 64 e v) (fun e => Some (n, e))
  else Some c.
(** protocol/message.go:92-96 *)
Definition f_monitoring (c : bytes * N * N) (k : bytes) (v : json) :=
  let '(n, s, e) := c in
  if is_key "Username" k then obind (dec_string n v) (fun n => Some (n, s, e))
  else if is_key "StartEpoch" k then obind (dec_uint 64 s v) (fun s => Some (n, s, e))
  else if is_key "EndEpoch" k then obind (dec_uint 64 e v) (fun e => Some (n, s, e))
  else Some c.

(** application/encoding.go:25-33, decoding into [protocol.Request] whose
    [Request] interface holds a pointer to the raw message [content].  A null
    replaces the interface by nil and leaves [content] alone; after that the
    interface no longer points to [content].  The state is: type, content (if
    any), whether the interface still points to [content]. *)
Definition f_request (c : Z * option json * bool) (k : bytes) (v : json) :=
  let '(t, content, live) := c in
  if is_key "Type" k then obind (dec_int t v) (fun t => Some (t, content, live))
  else if is_key "Request" k then
    match v with
    | JNull => Some (t, content, false)
    | _ => Some (t, if live : bool then Some v else content, live)
    end
  else Some c.

(** application/encoding.go:34-47: decoding the content by request type. *)
Definition dec_body (t : Z) (content : json) : option body :=
  if Z.eqb t RegistrationType then
    option_map (fun '(n, k, u, p) => WRegistration n k u p) (dec_struct f_registration ([], [], false, false) content)
  else if Z.eqb t KeyLookupType then
    option_map WKeyLookup (dec_struct f_keylookup [] content)
  else if Z.eqb t KeyLookupInEpochType then
    option_map (fun '(n, e) => WKeyLookupInEpoch n e) (dec_struct f_lookupepoch ([], 0%N) content)
  else if Z.eqb t MonitoringType then
    option_map (fun '(n, s, e) => WMonitoring n s e) (dec_struct f_monitoring ([], 0%N, 0%N) content)
  else Some (WOther content).

(** application/encoding.go:24-48 [UnmarshalRequest] on a message that is the
    JSON value [msg]; a message that is no JSON text at all is an error (see
    [acceptClient] in Server.v).  An absent content is the empty text, again
    an error. *)
Definition UnmarshalRequest (msg : json) : option Request :=
  match dec_struct f_request (0%Z, None, true) msg with
  | Some (t, Some content, _) => option_map (mkReq t) (dec_body t content)
  | _ => None
  end.

(** ** Responses *)

(** merkletree/proof.go:31-37, 76-83 and crypto/util.go:50-53; [proofType] is
    not exported and does not travel. *)
Definition enc_commit (c : Commit) : json :=
  JObj [(key "Salt", enc_bytes (c_salt c)); (key "Value", enc_bytes (c_value c))].
(** merkletree/proof.go:31-37 *)
Definition enc_proofnode (n : ProofNode) : json :=
  JObj [(key "Level", enc_N (N.of_nat (pn_level n))); (key "Index", enc_bytes (pn_index n));
        (key "Value", enc_bytes_opt (pn_value n)); (key "IsEmpty", JBool (pn_empty n));
        (key "Commitment", enc_ptr enc_commit (pn_com n))].
(** merkletree/proof.go:76-83 *)
Definition enc_authpath (ap : AuthPath) : json :=
  JObj [(key "TreeNonce", enc_bytes (ap_nonce ap)); (key "PrunedTree", JArr (map enc_arr32 (ap_pruned ap)));
        (key "LookupIndex", enc_bytes (ap_lookup ap)); (key "VrfProof", enc_bytes (ap_vrf ap));
        (key "Leaf", enc_ptr enc_proofnode (ap_leaf ap))].
(** protocol/policy.go:19-24 *)
Definition enc_policies (p : Policies) : json :=
  JObj [(key "Version", enc_string (pol_version p)); (key "HashID", enc_string (pol_hashid p));
        (key "VrfPublicKey", enc_bytes (pol_vrf p)); (key "EpochDeadline", enc_N (pol_deadline p))].
(** protocol/str.go:7-10 with merkletree/str.go:23-31: the embedded pointer's
    fields are promoted; a nil embedded pointer contributes none. *)
Definition enc_dirstr (s : DirSTR) : json :=
  JObj (match d_body s with
        | Some b => [(key "TreeHash", enc_bytes (s_hash b)); (key "Epoch", enc_N (s_epoch b));
                     (key "PreviousEpoch", enc_N (s_pepoch b)); (key "PreviousSTRHash", enc_bytes (s_phash b));
                     (key "Signature", enc_bytes (s_sig b))]
        | None => []
        end ++ [(key "Policies", enc_ptr enc_policies (d_pol s))]).
(** protocol/tb.go:17-21 *)
Definition enc_tb (tb : TemporaryBinding) : json :=
  JObj [(key "Index", enc_bytes (tb_index tb)); (key "Value", enc_bytes (tb_value tb));
        (key "Signature", enc_bytes (tb_sig tb))].
(** protocol/message.go:142-156; TB has omitempty. *)
Definition enc_proof (p : DirectoryProof) : json :=
  JObj ([(key "AP", JArr (map (enc_ptr enc_authpath) (dp_ap p)));
         (key "STR", JArr (map (enc_ptr enc_dirstr) (dp_str p)))]
        ++ match dp_tb p with Some tb => [(key "TB", enc_tb tb)] | None => [] end).
(** protocol/message.go:154-156 *)
Definition enc_history (l : list (option DirSTR)) : json :=
  JObj [(key "STR", JArr (map (enc_ptr enc_dirstr) l))].
(** protocol/message.go:128-156 *)
Definition enc_df (df : DirectoryResponse) : json :=
  match df with
  | DProof p => enc_ptr enc_proof p
  | DHistory l => enc_ptr enc_history l
  end.

(** application/encoding.go:51-53 [MarshalResponse]; a nil
    [DirectoryResponse] is omitted (protocol/message.go:128-131). *)
Definition MarshalResponse (r : Response) : json :=
  JObj ((key "Error", JInt (r_error r))
        :: match r_df r with Some df => [(key "DirectoryResponse", enc_df df)] | None => [] end).

(** Field decoders of the response structs. *)
(** crypto/util.go:49-55 *)
Definition f_commit (c : Commit) (k : bytes) (v : json) :=
  if is_key "Salt" k then obind (dec_bytes v) (fun x => Some (mkCommit x (c_value c)))
  else if is_key "Value" k then obind (dec_bytes v) (fun x => Some (mkCommit (c_salt c) x))
  else Some c.
(** crypto/util.go:49-55 *)
Definition zero_commit := mkCommit [] [].
(** merkletree/proof.go:31-37 *)
Definition f_proofnode (n : ProofNode) (k : bytes) (v : json) :=
  let '(mkPN l i va e c) := n in
  if is_key "Level" k then obind (dec_uint 32 (N.of_nat l) v) (fun x => Some (mkPN (N.to_nat x) i va e c))
  else if is_key "Index" k then obind (dec_bytes v) (fun x => Some (mkPN l x va e c))
  else if is_key "Value" k then obind (dec_bytes_opt v) (fun x => Some (mkPN l i x e c))
  else if is_key "IsEmpty" k then obind (dec_bool e v) (fun x => Some (mkPN l i va x c))
  else if is_key "Commitment" k then obind (dec_ptr f_commit zero_commit c v) (fun x => Some (mkPN l i va e x))
  else Some n.
(** merkletree/proof.go:31-37 *)
Definition zero_proofnode := mkPN 0 [] None false None.
(** merkletree/proof.go:76-83 *)
Definition f_authpath (a : AuthPath) (k : bytes) (v : json) :=
  let '(mkAP nc pt li vp lf) := a in
  if is_key "TreeNonce" k then obind (dec_bytes v) (fun x => Some (mkAP x pt li vp lf))
  else if is_key "PrunedTree" k then obind (dec_slice dec_arr32 v) (fun x => Some (mkAP nc x li vp lf))
  else if is_key "LookupIndex" k then obind (dec_bytes v) (fun x => Some (mkAP nc pt x vp lf))
  else if is_key "VrfProof" k then obind (dec_bytes v) (fun x => Some (mkAP nc pt li x lf))
  else if is_key "Leaf" k then obind (dec_ptr f_proofnode zero_proofnode lf v) (fun x => Some (mkAP nc pt li vp x))
  else Some a.
(** merkletree/proof.go:76-83 *)
Definition zero_authpath := mkAP [] [] [] [] None.
(** protocol/policy.go:18-23 *)
Definition f_policies (p : Policies) (k : bytes) (v : json) :=
  let '(mkPol ve h vk d) := p in
  if is_key "Version" k then obind (dec_string ve v) (fun x => Some (mkPol x h vk d))
  else if is_key "HashID" k then obind (dec_string h v) (fun x => Some (mkPol ve x vk d))
  else if is_key "VrfPublicKey" k then obind (dec_bytes v) (fun x => Some (mkPol ve h x d))
  else if is_key "EpochDeadline" k then obind (dec_uint 64 d v) (fun x => Some (mkPol ve h vk x))
  else Some p.
(** protocol/policy.go:18-23 *)
Definition zero_policies := mkPol [] [] [] 0%N.
(** merkletree/str.go:23-31 *)
Definition zero_body := mkBody [] 0%N 0%N [] [].
(** A promoted field allocates the embedded struct if it is nil. *)
(** protocol/str.go:7-10 *)
Definition on_body (s : DirSTR) (f : STRBody -> option STRBody) : option DirSTR :=
  obind (f (match d_body s with Some b => b | None => zero_body end)) (fun b => Some (mkDir (Some b) (d_pol s))).
(** protocol/str.go:7-10, merkletree/str.go:23-31 *)
Definition f_dirstr (s : DirSTR) (k : bytes) (v : json) :=
  if is_key "TreeHash" k then on_body s (fun '(mkBody h e pe ph sg) => obind (dec_bytes v) (fun x => Some (mkBody x e pe ph sg)))
  else if is_key "Epoch" k then on_body s (fun '(mkBody h e pe ph sg) => obind (dec_uint 64 e v) (fun x => Some (mkBody h x pe ph sg)))
  else if is_key "PreviousEpoch" k then on_body s (fun '(mkBody h e pe ph sg) => obind (dec_uint 64 pe v) (fun x => Some (mkBody h e x ph sg)))
  else if is_key "PreviousSTRHash" k then on_body s (fun '(mkBody h e pe ph sg) => obind (dec_bytes v) (fun x => Some (mkBody h e pe x sg)))
  else if is_key "Signature" k then on_body s (fun '(mkBody h e pe ph sg) => obind (dec_bytes v) (fun x => Some (mkBody h e pe ph x)))
  else if is_key "Policies" k then obind (dec_ptr f_policies zero_policies (d_pol s) v) (fun x => Some (mkDir (d_body s) x))
  else Some s.
(** protocol/str.go:7-10 *)
Definition zero_dirstr := mkDir None None.
(** protocol/tb.go:17-21 *)
Definition f_tb (t : TemporaryBinding) (k : bytes) (v : json) :=
  let '(mkTB i va s) := t in
  if is_key "Index" k then obind (dec_bytes v) (fun x => Some (mkTB x va s))
  else if is_key "Value" k then obind (dec_bytes v) (fun x => Some (mkTB i x s))
  else if is_key "Signature" k then obind (dec_bytes v) (fun x => Some (mkTB i va x))
  else Some t.
(** protocol/tb.go:17-21 *)
Definition zero_tb := mkTB [] [] [].
(** protocol/message.go:142-156 *)
Definition dec_strs (v : json) := dec_slice (dec_ptr f_dirstr zero_dirstr None) v.
(** protocol/message.go:142-146 *)
Definition f_proof (p : DirectoryProof) (k : bytes) (v : json) :=
  let '(mkDP a s t) := p in
  if is_key "AP" k then obind (dec_slice (dec_ptr f_authpath zero_authpath None) v) (fun x => Some (mkDP x s t))
  else if is_key "STR" k then obind (dec_strs v) (fun x => Some (mkDP a x t))
  else if is_key "TB" k then obind (dec_ptr f_tb zero_tb t v) (fun x => Some (mkDP a s x))
  else Some p.
(** protocol/message.go:154-156 *)
Definition f_history (l : list (option DirSTR)) (k : bytes) (v : json) :=
  if is_key "STR" k then dec_strs v else Some l.

(** application/encoding.go:59-67: error code and raw [DirectoryResponse].  A
    JSON null is stored as the raw text "null", which is not a nil slice. *)
Definition f_response (c : Z * option json) (k : bytes) (v : json) :=
  let '(e, raw) := c in
  if is_key "Error" k then obind (dec_int e v) (fun e => Some (e, raw))
  else if is_key "DirectoryResponse" k then Some (e, Some v)
  else Some c.

(** application/encoding.go:58-108 [UnmarshalResponse]; [None] for the
    message: not a JSON text. *)
Definition UnmarshalResponse (t : Z) (msg : option json) : result Response :=
  match obind msg (dec_struct f_response (0%Z, None)) with
  | None => Ok (mkResp ErrMalformedMessage None)
  | Some (e, None) =>
      do err <- Validate (mkResp e None);
      match err with
      | Some err => Ok (mkResp err None)
      | None => Panic
      end
  | Some (e, Some raw) =>
      if Z.eqb t RegistrationType || Z.eqb t KeyLookupType || Z.eqb t KeyLookupInEpochType || Z.eqb t MonitoringType
      then match dec_ptr f_proof (mkDP [] [] None) (Some (mkDP [] [] None)) raw with
           | None => Ok (mkResp ErrMalformedMessage None)
           | Some p => Ok (mkResp e (Some (DProof p)))
           end
      else if Z.eqb t STRType
      then match dec_ptr f_history [] (Some []) raw with
           | None => Ok (mkResp ErrMalformedMessage None)
           | Some l => Ok (mkResp e (Some (DHistory l)))
           end
      else Panic
  end.

(** * Round trips *)
(** no line of its own in /repo: specification: what can travel unchanged *)
Definition int64 (z : Z) : Prop := (- 2 ^ 63 <= z < 2 ^ 63)%Z.
(** no line of its own in /repo: specification: what can travel unchanged *)
Definition uint64 (n : N) : Prop := (n < 2 ^ 64)%N.

Lemma dec_int_enc cur z : int64 z -> dec_int cur (JInt z) = Some z.
Proof.
  intros [A B]. unfold dec_int. apply Z.leb_le in A. apply Z.ltb_lt in B. rewrite A, B. reflexivity.
Qed.
Lemma dec_string_enc cur s : utf8 s -> dec_string cur (enc_string s) = Some s.
Proof. intro H. unfold dec_string, enc_string. rewrite utf8_coerce_id; auto. Qed.

(** What can travel unchanged. *)
(** no line of its own in /repo: specification: what can travel unchanged *)
Definition wf_body (b : body) : Prop :=
  match b with
  | WRegistration n _ _ _ | WKeyLookup n => utf8 n
  | WKeyLookupInEpoch n e => utf8 n /\ uint64 e
  | WMonitoring n s e => utf8 n /\ uint64 s /\ uint64 e
  | _ => False
  end.
(** protocol/message.go:13-20 *)
Definition type_of (b : body) : Z :=
  match b with
  | WRegistration _ _ _ _ => RegistrationType
  | WKeyLookup _ => KeyLookupType
  | WKeyLookupInEpoch _ _ => KeyLookupInEpochType
  | WMonitoring _ _ _ => MonitoringType
  | WAuditing _ _ _ => AuditType
  | WSTRHistory _ _ => STRType
  | WOther _ => (-1)%Z
  end.

Ltac keys := repeat match goal with
  | |- context [is_key ?a ?b] => let x := eval vm_compute in (is_key a b) in
        change (is_key a b) with x; cbn iota
  end.

Lemma UnmarshalRequest_shape t v : int64 t -> v <> JNull ->
  UnmarshalRequest (JObj [(key "Type", JInt t); (key "Request", v)]) = option_map (mkReq t) (dec_body t v).
Proof.
  intros Ht Hv. unfold UnmarshalRequest. cbn [dec_struct dec_members f_request]. keys.
  rewrite dec_int_enc by auto. cbn [obind dec_members f_request]. keys.
  destruct v; try reflexivity. congruence.
Qed.

Ltac dec := repeat (cbn [dec_struct dec_members dec_ptr app option_map obind
    f_registration f_keylookup f_lookupepoch f_monitoring
    f_commit f_proofnode f_authpath f_policies f_dirstr f_tb f_proof f_history on_body
    d_body d_pol c_salt c_value]; keys;
  try rewrite !dec_bytes_enc; try rewrite !dec_bytes_opt_enc;
  try (rewrite dec_string_enc by auto); try (rewrite dec_uint_enc by auto)).

Lemma request_round_trip b : wf_body b ->
  UnmarshalRequest (MarshalRequest (type_of b) b) = Some (mkReq (type_of b) b).
Proof.
  intro W. unfold MarshalRequest. rewrite UnmarshalRequest_shape.
  2:{ destruct b; try (destruct W; fail); unfold int64; split; reflexivity || discriminate. }
  2:{ destruct b; try (destruct W; fail); discriminate. }
  destruct b as [n k u p|n|n e|n s e| | |]; try (destruct W; fail); cbn [wf_body] in W;
    cbn [type_of enc_body]; unfold dec_body.
  - change (Z.eqb RegistrationType RegistrationType) with true. cbn iota. dec.
    destruct u, p; dec; reflexivity.
  - change (Z.eqb KeyLookupType RegistrationType) with false.
    change (Z.eqb KeyLookupType KeyLookupType) with true. cbn iota.
    cbn [dec_struct dec_members]. unfold f_keylookup. keys. rewrite dec_string_enc by auto. reflexivity.
  - destruct W as [W1 W2].
    change (Z.eqb KeyLookupInEpochType RegistrationType) with false.
    change (Z.eqb KeyLookupInEpochType KeyLookupType) with false.
    change (Z.eqb KeyLookupInEpochType KeyLookupInEpochType) with true. cbn iota. dec. reflexivity.
  - destruct W as (W1 & W2 & W3).
    change (Z.eqb MonitoringType RegistrationType) with false.
    change (Z.eqb MonitoringType KeyLookupType) with false.
    change (Z.eqb MonitoringType KeyLookupInEpochType) with false.
    change (Z.eqb MonitoringType MonitoringType) with true. cbn iota. dec. reflexivity.
Qed.

(** Responses that travel unchanged: numbers in range, 32-byte hashes, text in
    UTF-8. *)
(** no line of its own in /repo: specification: what can travel unchanged *)
Definition wf_proofnode (n : ProofNode) : Prop := (N.of_nat (pn_level n) < 2 ^ 32)%N.
(** no line of its own in /repo: specification: what can travel unchanged *)
Definition wf_authpath (a : AuthPath) : Prop :=
  (forall h, In h (ap_pruned a) -> length h = 32) /\
  match ap_leaf a with Some n => wf_proofnode n | None => True end.
(** no line of its own in /repo: specification: what can travel unchanged *)
Definition wf_policies (p : Policies) : Prop :=
  utf8 (pol_version p) /\ utf8 (pol_hashid p) /\ uint64 (pol_deadline p).
(** no line of its own in /repo: specification: what can travel unchanged *)
Definition wf_dirstr (s : DirSTR) : Prop :=
  match d_body s with Some b => uint64 (s_epoch b) /\ uint64 (s_pepoch b) | None => True end /\
  match d_pol s with Some p => wf_policies p | None => True end.
(** no line of its own in /repo: specification: what can travel unchanged *)
Definition wf_opt {A} (P : A -> Prop) (o : option A) : Prop := match o with Some a => P a | None => True end.
(** no line of its own in /repo: specification: what can travel unchanged *)
Definition wf_df (df : DirectoryResponse) : Prop :=
  match df with
  | DProof (Some p) => (forall a, In a (dp_ap p) -> wf_opt wf_authpath a) /\
                       (forall s, In s (dp_str p) -> wf_opt wf_dirstr s)
  | DHistory (Some l) => forall s, In s l -> wf_opt wf_dirstr s
  | _ => True
  end.
(** protocol/message.go:128-156 *)
Definition answers (t : Z) (df : DirectoryResponse) : Prop :=
  match df with
  | DProof _ => t = RegistrationType \/ t = KeyLookupType \/ t = KeyLookupInEpochType \/ t = MonitoringType
  | DHistory _ => t = STRType
  end.

Lemma com_rt o : dec_ptr f_commit zero_commit None (enc_ptr enc_commit o) = Some o.
Proof.
  destruct o as [[sa va]|]; [|reflexivity]. unfold enc_ptr, enc_commit, zero_commit. cbn [c_salt c_value].
  cbn [dec_ptr dec_struct dec_members]. unfold f_commit at 1. keys. rewrite dec_bytes_enc. cbn [obind c_salt c_value].
  unfold f_commit. keys. rewrite dec_bytes_enc. reflexivity.
Qed.

Lemma proofnode_rt o : wf_opt wf_proofnode o ->
  dec_ptr f_proofnode zero_proofnode None (enc_ptr enc_proofnode o) = Some o.
Proof.
  destruct o as [[l i v e c]|]; [|reflexivity]. intro W. unfold wf_opt, wf_proofnode in W. cbn [pn_level] in W.
  unfold enc_ptr at 1. unfold enc_proofnode.
  cbn [pn_level pn_index pn_value pn_empty pn_com]. unfold zero_proofnode. 
  cbn [dec_ptr dec_struct dec_members f_proofnode]. keys. rewrite dec_uint_enc by auto.
  cbn [obind dec_members f_proofnode]. keys. rewrite dec_bytes_enc.
  cbn [obind dec_members f_proofnode]. keys. rewrite dec_bytes_opt_enc.
  cbn [obind dec_members f_proofnode dec_bool]. keys.
  cbn [obind dec_members f_proofnode dec_bool]. keys. rewrite com_rt.
  cbn [obind dec_members option_map]. rewrite Nat2N.id. reflexivity.
Qed.

Lemma authpath_rt o : wf_opt wf_authpath o ->
  dec_ptr f_authpath zero_authpath None (enc_ptr enc_authpath o) = Some o.
Proof.
  destruct o as [[nc pt li vp lf]|]; [|reflexivity]. intros [W1 W2]. cbn [ap_pruned ap_leaf] in *.
  unfold enc_ptr at 1. unfold enc_authpath. cbn [ap_nonce ap_pruned ap_lookup ap_vrf ap_leaf]. unfold zero_authpath.
  cbn [dec_ptr dec_struct dec_members f_authpath]. keys. rewrite dec_bytes_enc.
  cbn [obind dec_members f_authpath]. keys. rewrite dec_slice_enc by (intros; apply dec_arr32_enc; auto).
  cbn [obind dec_members f_authpath]. keys. rewrite dec_bytes_enc.
  cbn [obind dec_members f_authpath]. keys. rewrite dec_bytes_enc.
  cbn [obind dec_members f_authpath]. keys. rewrite proofnode_rt by exact W2.
  reflexivity.
Qed.

Lemma policies_rt o : wf_opt wf_policies o ->
  dec_ptr f_policies zero_policies None (enc_ptr enc_policies o) = Some o.
Proof.
  destruct o as [[ve h vk d]|]; [|reflexivity]. intros (W1 & W2 & W3). cbn [pol_version pol_hashid pol_deadline] in *.
  unfold enc_ptr, enc_policies. cbn [pol_version pol_hashid pol_deadline pol_vrf]. unfold zero_policies.
  cbn [dec_ptr dec_struct dec_members f_policies]. keys. rewrite dec_string_enc by auto.
  cbn [obind dec_members f_policies]. keys. rewrite dec_string_enc by auto.
  cbn [obind dec_members f_policies]. keys. rewrite dec_bytes_enc.
  cbn [obind dec_members f_policies]. keys. rewrite dec_uint_enc by auto.
  reflexivity.
Qed.

Lemma dirstr_rt o : wf_opt wf_dirstr o ->
  dec_ptr f_dirstr zero_dirstr None (enc_ptr enc_dirstr o) = Some o.
Proof.
  destruct o as [[b p]|]; [|reflexivity]. intros [W1 W2]. cbn [d_body d_pol] in *.
  unfold enc_ptr at 1. unfold enc_dirstr. cbn [d_body d_pol]. unfold zero_dirstr.
  destruct b as [[h e pe ph sg]|]; cbn [app s_hash s_epoch s_pepoch s_phash s_sig] in *.
  - destruct W1 as [E1 E2].
    cbn [dec_ptr dec_struct dec_members]. unfold f_dirstr at 1. keys.
    unfold on_body. cbn [d_body d_pol]. unfold zero_body. rewrite dec_bytes_enc. cbn [obind dec_members].
    unfold f_dirstr at 1. keys. unfold on_body. cbn [d_body d_pol]. rewrite dec_uint_enc by auto. cbn [obind dec_members].
    unfold f_dirstr at 1. keys. unfold on_body. cbn [d_body d_pol]. rewrite dec_uint_enc by auto. cbn [obind dec_members].
    unfold f_dirstr at 1. keys. unfold on_body. cbn [d_body d_pol]. rewrite dec_bytes_enc. cbn [obind dec_members].
    unfold f_dirstr at 1. keys. unfold on_body. cbn [d_body d_pol]. rewrite dec_bytes_enc. cbn [obind dec_members].
    unfold f_dirstr at 1. keys. cbn [d_body d_pol]. rewrite policies_rt by exact W2. reflexivity.
  - cbn [dec_ptr dec_struct dec_members]. unfold f_dirstr at 1. keys.
    cbn [d_body d_pol]. rewrite policies_rt by exact W2. reflexivity.
Qed.

Lemma strs_rt l : (forall s, In s l -> wf_opt wf_dirstr s) ->
  dec_strs (JArr (map (enc_ptr enc_dirstr) l)) = Some l.
Proof. intro W. unfold dec_strs. apply dec_slice_enc. intros; apply dirstr_rt; auto. Qed.

Lemma tb_rt tb cur : dec_ptr f_tb zero_tb cur (enc_tb tb) = Some (Some tb).
Proof.
  destruct tb as [i v s]. unfold enc_tb. cbn [tb_index tb_value tb_sig].
  cbn [dec_ptr dec_struct]. destruct cur as [[]|]; unfold zero_tb; cbn [dec_members f_tb]; keys; rewrite dec_bytes_enc;
  cbn [obind dec_members f_tb]; keys; rewrite dec_bytes_enc;
  cbn [obind dec_members f_tb]; keys; rewrite dec_bytes_enc; reflexivity.
Qed.

Lemma proof_rt p : wf_df (DProof p) ->
  dec_ptr f_proof (mkDP [] [] None) (Some (mkDP [] [] None)) (enc_ptr enc_proof p) = Some p.
Proof.
  destruct p as [[a s t]|]; [|reflexivity]. intros [W1 W2]. cbn [dp_ap dp_str] in *.
  unfold enc_ptr at 1. unfold enc_proof. cbn [dp_ap dp_str dp_tb app].
  cbn [dec_ptr dec_struct dec_members f_proof]. keys.
  rewrite dec_slice_enc by (intros; apply authpath_rt; auto).
  cbn [obind dec_members f_proof]. keys. rewrite strs_rt by auto.
  cbn [obind dec_members f_proof]. destruct t as [t|].
  - cbn [dec_members f_proof]. keys. rewrite tb_rt. reflexivity.
  - reflexivity.
Qed.

Lemma history_rt l : wf_df (DHistory l) ->
  dec_ptr f_history [] (Some []) (enc_ptr enc_history l) = Some l.
Proof.
  destruct l as [l|]; [|reflexivity]. intro W. cbn [wf_df] in W.
  unfold enc_ptr at 1. unfold enc_history.
  cbn [dec_ptr dec_struct dec_members]. unfold f_history. keys. rewrite strs_rt by auto. reflexivity.
Qed.

Lemma response_round_trip t r df : int64 (r_error r) -> r_df r = Some df -> wf_df df -> answers t df ->
  UnmarshalResponse t (Some (MarshalResponse r)) = Ok r.
Proof.
  intros We Ed Wd An. destruct r as [e o]; cbn [r_error r_df] in *. subst o.
  unfold UnmarshalResponse, MarshalResponse. cbn [r_error r_df obind dec_struct dec_members f_response]. keys.
  rewrite dec_int_enc by auto. cbn [obind dec_members f_response]. keys. cbn [dec_members].
  destruct df as [p|l]; cbn [answers enc_df] in *.
  - assert (Z.eqb t RegistrationType || Z.eqb t KeyLookupType || Z.eqb t KeyLookupInEpochType || Z.eqb t MonitoringType = true) as ->
      by (destruct An as [->|[->|[->| ->]]]; reflexivity).
    rewrite proof_rt by auto. reflexivity.
  - subst t. change (Z.eqb STRType RegistrationType || Z.eqb STRType KeyLookupType || Z.eqb STRType KeyLookupInEpochType
      || Z.eqb STRType MonitoringType) with false. change (Z.eqb STRType STRType) with true. cbn iota.
    rewrite history_rt by auto. reflexivity.
Qed.

Lemma error_round_trip t e : is_error e = true ->
  UnmarshalResponse t (Some (MarshalResponse (NewErrorResponse e))) = Ok (NewErrorResponse e).
Proof.
  intro H. unfold UnmarshalResponse, MarshalResponse, NewErrorResponse.
  cbn [r_error r_df obind dec_struct dec_members f_response]. keys.
  rewrite dec_int_enc.
  - cbn [obind dec_members]. unfold Validate. cbn [r_error r_df]. rewrite H. reflexivity.
  - unfold is_error in H. rewrite !orb_true_iff, !Z.eqb_eq in H.
    destruct H as [[->| ->]| ->]; unfold int64; split; reflexivity || discriminate.
Qed.

(** A message a misbehaving server can send: {"Error":100,"DirectoryResponse":null}. *)
Definition null_response : json := JObj [(key "Error", JInt 100); (key "DirectoryResponse", JNull)].
