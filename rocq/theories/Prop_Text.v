(** C65, C66: the messages as texts on a connection. *)
From Coq Require Import List NArith ZArith Lia Bool Arith.
From Coq Require Import String.
From Verif Require Import Base Utils Crypto Tree STR PAD PADSpec Protocol Directory DirSpec DirFacts DirMain Prop_Directory
  Json JsonText Wire Text TextFacts Conc Server ServerFacts ServerWire Prop_Server.
Import ListNotations.
Local Open Scope list_scope.
Local Open Scope nat_scope.
Notation length := List.length.

(* the large literals, in a form lia computes with *)
Lemma n8192 : 8192 = 64 * 128. Proof. vm_compute. reflexivity. Qed.
Lemma n6900 : 6900 = 69 * 100. Proof. vm_compute. reflexivity. Qed.
Lemma n24300 : 24300 = 243 * 100. Proof. vm_compute. reflexivity. Qed.
Lemma n6144 : 6144 = 64 * 96. Proof. vm_compute. reflexivity. Qed.

(** ** C65: texts mean the same on both sides *)

(** Any JSON value whose strings are UTF-8 is read back from its text; so no
    two values share a text. *)
Theorem C65_text_round_trip : forall j, json_utf8 j -> json_parse (json_text j) = Some j.
Proof. exact json_round_trip. Qed.
Print Assumptions C65_text_round_trip.
Theorem C65_text_unique : forall i j, json_utf8 i -> json_utf8 j -> json_text i = json_text j -> i = j.
Proof.
  intros i j I J E. pose proof (json_round_trip i I) as A. rewrite E, (json_round_trip j J) in A. congruence.
Qed.
Print Assumptions C65_text_unique.

(** A request of at most 8192 bytes is what the server works on. *)
Theorem C65_requests_arrive : forall b, wf_body b -> length (request_text (type_of b) b) <= 8192 ->
  obind (received (request_text (type_of b) b)) UnmarshalRequest = Some (mkReq (type_of b) b).
Proof.
  intros b W L. unfold received. rewrite firstn_all2 by exact L. unfold request_text.
  rewrite json_round_trip; [cbn [obind]; apply request_round_trip; exact W|].
  apply request_utf8. intros v ->. exact W.
Qed.
Print Assumptions C65_requests_arrive.

(** The client's two messages, whatever the name and key. *)
Theorem C65_client_messages : forall name k,
  (length (json_text (CreateRegistrationMsg name k)) <= 8192 ->
   obind (received (json_text (CreateRegistrationMsg name k))) UnmarshalRequest =
     Some (mkReq RegistrationType (WRegistration (utf8_coerce name) k false false))) /\
  (length (json_text (CreateKeyLookupMsg name)) <= 8192 ->
   obind (received (json_text (CreateKeyLookupMsg name))) UnmarshalRequest =
     Some (mkReq KeyLookupType (WKeyLookup (utf8_coerce name)))).
Proof.
  intros name k. destruct (C43_client_messages name k) as (A & B & _).
  split; intro L; unfold received; rewrite firstn_all2 by exact L; rewrite json_round_trip;
    [exact A|apply request_utf8; discriminate|exact B|apply request_utf8; discriminate].
Qed.
Print Assumptions C65_client_messages.

(** A longer one is refused and changes nothing. *)
Theorem C65_long_requests_refused : forall (C : Crypto) p addr t b r d, (forall v, b <> WOther v) ->
  8192 < length (request_text t b) ->
  srv_sem p (OMsg addr (received (request_text t b)) r) d = Ok (d, Some (NewErrorResponse ErrMalformedMessage)).
Proof.
  intros C p addr t b r d W L.
  assert (E : received (request_text t b) = None).
  { unfold received, request_text. apply cut_object; [apply request_utf8; exact W|exact L]. }
  rewrite E. reflexivity.
Qed.
Print Assumptions C65_long_requests_refused.

(** Whatever bytes a client sends: if they are a JSON text as a whole, then the
    server either works on that very request or refuses; the cut at 8192 bytes
    never turns it into another one. *)
Theorem C65_cut_never_changes_meaning : forall p addr s q, accept p addr (received s) = inr q ->
  forall j, json_parse s = Some j -> UnmarshalRequest j = Some q.
Proof.
  intros p addr s q A j P. unfold accept in A. destruct (obind (received s) UnmarshalRequest) as [q'|] eqn:R; [|discriminate A].
  destruct (checkRequestType p addr (q_type q')); [|discriminate A]. injection A as ->.
  unfold received in R. destruct (json_parse (firstn limit s)) as [k|] eqn:Q; [|discriminate R]. cbn [obind] in R.
  assert (NN : not_number k) by (destruct k; try exact I; discriminate R).
  rewrite (cut_meaning _ _ _ _ NN P Q) in R. exact R.
Qed.
Print Assumptions C65_cut_never_changes_meaning.

(** Answers: read completely if they fit, recognised as malformed if not;
    never as another answer. *)
Theorem C65_answers : forall (C : Crypto), CryptoOk C ->
  forall dl0 vk sk size r1 r2 ops d, dir_built dl0 vk sk size r1 r2 ops d -> few ops -> deadlines_ok dl0 ops ->
  forall r b d' resp, wf_body b -> directory_answer d r b = Ok (d', resp) ->
  UnmarshalResponse (type_of b) (received (response_text resp)) =
  Ok (if length (response_text resp) <=? 8192 then resp else NewErrorResponse ErrMalformedMessage).
Proof.
  intros C OK dl0 vk sk size r1 r2 ops d B F D r b d' resp W A.
  pose proof (C43_directory_answers_arrive C OK _ _ _ _ _ _ _ _ B F D r b d' resp W A) as T.
  destruct (Nat.leb_spec (length (response_text resp)) 8192) as [L|L].
  - unfold received. rewrite firstn_all2 by exact L. unfold response_text. rewrite json_round_trip by apply response_utf8. exact T.
  - assert (E : received (response_text resp) = None).
    { unfold received, response_text, MarshalResponse. apply cut_object; [apply response_utf8|exact L]. }
    rewrite E. reflexivity.
Qed.
Print Assumptions C65_answers.

(** Bytes after the first 8192 are ignored, even if they make the whole no JSON
    text at all: a request padded with blanks is accepted. *)
Definition padded (s junk : bytes) : bytes := s ++ repeat x20 (8192 - length s) ++ junk.
Lemma skip_blanks n : skip_ws (repeat x20 n) = [].
Proof. induction n as [|n IH]; [reflexivity|]. cbn [repeat skip_ws]. change (is_ws x20) with true. exact IH. Qed.
Lemma parse_trailing s n j : closed j -> json_parse s = Some j -> json_parse (s ++ repeat x20 n) = Some j.
Proof.
  intros Cl P. rewrite <- (parse_fuel s (2 * length (s ++ repeat x20 n) + 2)) in P by (rewrite app_length; lia).
  unfold json_parse, parse_with in *.
  destruct (p_value _ s) as [[k rr]|] eqn:E; [|discriminate P]. destruct (skip_ws rr) eqn:W; [|discriminate P]. injection P as ->.
  rewrite (proj1 (p_app _ (repeat x20 n)) _ _ _ E) by (left; destruct j; exact I || destruct Cl).
  rewrite (skip_ws_app_nil _ _ W), skip_blanks. reflexivity.
Qed.
Theorem C65_rest_ignored : forall b junk, wf_body b -> length (request_text (type_of b) b) <= 8192 ->
  obind (received (padded (request_text (type_of b) b) junk)) UnmarshalRequest = Some (mkReq (type_of b) b).
Proof.
  intros b junk W L. unfold received, padded. set (t := request_text (type_of b) b) in *.
  assert (E : firstn limit (t ++ repeat x20 (8192 - length t) ++ junk) = t ++ repeat x20 (8192 - length t)).
  { rewrite app_assoc, firstn_app. 
    replace (limit - length (t ++ repeat x20 (8192 - length t))) with 0 by (rewrite app_length, repeat_length; unfold limit; lia).
    rewrite firstn_all2 by (rewrite app_length, repeat_length; unfold limit; lia). apply app_nil_r. }
  rewrite E. unfold t, request_text. erewrite parse_trailing;
    [cbn [obind]; apply request_round_trip; exact W|exact I|apply json_round_trip; apply request_utf8; intros v ->; exact W].
Qed.
Print Assumptions C65_rest_ignored.

(** ** C66: what fits *)

(** Registrations and lookups: with a path of at most [dep] hashes and a key of
    at most [k] bytes the answer is read completely, for instance 32 hashes
    and 900 bytes, or 40 hashes and 566 bytes.  (The path has about as many
    hashes as the number of users has bits.) *)
Definition path_len (resp : Response) : nat :=
  match r_df resp with
  | Some (DProof (Some p)) => match dp_ap p with [Some ap] => length (ap_pruned ap) | _ => 0 end
  | _ => 0
  end.
Definition keys_within (k : nat) (resp : Response) : Prop :=
  match r_df resp with
  | Some (DProof (Some p)) =>
      (forall ap leaf v, In (Some ap) (dp_ap p) -> ap_leaf ap = Some leaf -> pn_value leaf = Some v -> length v <= k) /\
      (forall tb, dp_tb p = Some tb -> length (tb_value tb) <= k)
  | _ => True
  end.
Lemma usual_answers_fit : forall (C : Crypto), CryptoOk C ->
  forall dl0 vk sk size r1 r2 ops d, dir_built dl0 vk sk size r1 r2 ops d -> few ops -> deadlines_ok dl0 ops ->
  (forall m, length (snd (vrf_prove vk m)) <= 96) ->
  forall r b d' resp, wf_body b -> type_of b = RegistrationType \/ type_of b = KeyLookupType ->
  directory_answer d r b = Ok (d', resp) ->
  forall dep k, path_len resp <= dep -> keys_within k resp -> 130 * dep + 3 * k <= 6900 ->
  length (response_text resp) <= 8192.
Proof.
  intros C OK dl0 vk sk size r1 r2 ops d B F D VL r b d' resp W T A dep k P K Sm.
  assert (F' : (N.of_nat (dupdates ops) < two64)%N) by (unfold few, two64 in *; lia).
  assert (An : answer_le dep k resp).
  { destruct b; try (destruct W; fail); cbn [type_of directory_answer] in *; try (exfalso; destruct T; discriminate).
    - eapply register_le; eauto.
    - destruct (KeyLookup d name) as [x|] eqn:E; cbn [bind] in A; [injection A as <- <-|discriminate A]. eapply keylookup_le; eauto. }
  destruct An as [N|(ap & leaf & s & tb & E & Lf & An)].
    - unfold response_text, MarshalResponse. rewrite N. change (tlen (JObj [(key "Error"%string, JInt (r_error resp))]) <= 8192).
      assert (X : (r_error resp = ErrMalformedMessage \/ r_error resp = ErrDirectory)).
      { clear -A W T N. destruct b; try (destruct W; fail); cbn [type_of directory_answer] in *; try (exfalso; destruct T; discriminate).
        - revert A. unfold Register. destruct (_ || _); [intro H; injection H as <- <-; left; reflexivity|].
          destruct (Lookup _ _) as [[ap|]|]; cbn [bind]; [|intro H; injection H as <- <-; right; reflexivity|intro H; discriminate H].
          destruct (leaf_matches ap) as [[]|]; cbn [bind]; [| |intro H; discriminate H]; [intro H; injection H as <- <-; discriminate N|].
          destruct (if dr_useTBs d then _ else None); [intro H; injection H as <- <-; discriminate N|].
          destruct (PAD_Set _ _ _ _) as [[pad|]|]; cbn [bind]; intro H; [injection H as <- <-; discriminate N|injection H as <- <-; right; reflexivity|discriminate H].
        - revert A. unfold KeyLookup. destruct (is_nil name); [cbn [bind]; intro H; injection H as <- <-; left; reflexivity|].
          destruct (Lookup _ _) as [[ap|]|]; cbn [bind]; [|intro H; injection H as <- <-; right; reflexivity|intro H; discriminate H].
          destruct (leaf_matches ap) as [[]|]; cbn [bind]; [| |intro H; discriminate H]; [intro H; injection H as <- <-; discriminate N|].
          destruct (if dr_useTBs d then _ else None); cbn [bind]; intro H; injection H as <- <-; discriminate N. }
      destruct X as [-> | ->]; vm_compute; lia.
    - unfold path_len in P. unfold keys_within in K. rewrite E in P, K. cbn [dp_ap dp_tb] in P, K. destruct K as [K1 K2].
      assert (X : length (response_text resp) <= 1230 + 130 * dep + 8 * ((k + 2) / 3)).
      { apply An; [exact P| |].
        - destruct (pn_value leaf) as [v|] eqn:V; [|exact I]. eapply K1; [left; reflexivity|exact Lf|exact V].
        - destruct tb as [tb|]; [|exact I]. apply K2. reflexivity. }
      pose proof (Nat.mul_div_le (k + 2) 3 ltac:(lia)) as DM. rewrite n6900 in Sm. rewrite n8192. lia.
Qed.
Theorem C66_usual_answers_read : forall (C : Crypto), CryptoOk C ->
  forall dl0 vk sk size r1 r2 ops d, dir_built dl0 vk sk size r1 r2 ops d -> few ops -> deadlines_ok dl0 ops ->
  (forall m, length (snd (vrf_prove vk m)) <= 96) ->
  forall r b d' resp, wf_body b -> type_of b = RegistrationType \/ type_of b = KeyLookupType ->
  directory_answer d r b = Ok (d', resp) ->
  forall dep k, path_len resp <= dep -> keys_within k resp -> 130 * dep + 3 * k <= 6900 ->
  UnmarshalResponse (type_of b) (received (response_text resp)) = Ok resp.
Proof.
  intros C OK dl0 vk sk size r1 r2 ops d B F D VL r b d' resp W T A dep k P K Sm.
  rewrite (C65_answers C OK _ _ _ _ _ _ _ _ B F D r b d' resp W A).
  pose proof (usual_answers_fit C OK _ _ _ _ _ _ _ _ B F D VL r b d' resp W T A dep k P K Sm) as L.
  apply Nat.leb_le in L. rewrite L. reflexivity.
Qed.
Print Assumptions C66_usual_answers_read.

(** Requests for plain names (no control characters, quotes, backslashes,
    angle brackets, ampersands or bytes from 0x80). *)
Theorem C66_usual_requests_fit : forall n k, Forall (fun c => plain c = true) n ->
  3 * length n + 4 * length k <= 24300 ->
  length (json_text (CreateRegistrationMsg n k)) <= 8192 /\ length (json_text (CreateKeyLookupMsg n)) <= 8192.
Proof.
  intros n k P L. destruct (register_size n k P) as [A B].
  rewrite n24300 in L. rewrite n8192. pose proof (Nat.mul_div_le (length k + 2) 3 ltac:(lia)). lia.
Qed.
Print Assumptions C66_usual_requests_fit.

(** Keys from 6 KiB on cannot be registered over the network. *)
Theorem C66_large_keys_refused : forall (C : Crypto) p addr n k u v r d, 6144 <= length k ->
  srv_sem p (OMsg addr (received (request_text RegistrationType (WRegistration n k u v))) r) d =
  Ok (d, Some (NewErrorResponse ErrMalformedMessage)).
Proof.
  intros C p addr n k u v r d L. apply C65_long_requests_refused; [discriminate|].
  pose proof (register_size_ge RegistrationType n k u v) as K. rewrite n6144 in L. rewrite n8192.
  pose proof (Nat.div_mod (length k + 2) 3 ltac:(lia)) as M. pose proof (Nat.mod_upper_bound (length k + 2) 3 ltac:(lia)). lia.
Qed.
Print Assumptions C66_large_keys_refused.

(** The answer to a lookup in an epoch carries every root since; from 25 on it
    cannot be read, whatever the server's history length. *)
Theorem C66_old_lookups_unreadable_refuted : forall (C : Crypto), CryptoOk C ->
  forall dl0 vk sk size r1 r2 ops d, dir_built dl0 vk sk size r1 r2 ops d -> few ops -> deadlines_ok dl0 ops ->
  forall name e resp, utf8 name -> (e + 24 <= latestEpoch d)%N -> KeyLookupInEpoch d name e = Ok resp ->
  UnmarshalResponse KeyLookupInEpochType (received (response_text resp)) =
    Ok (if is_error (r_error resp) then resp else NewErrorResponse ErrMalformedMessage).
Proof.
  intros C OK dl0 vk sk size r1 r2 ops d B F D name e resp U E A.
  assert (F' : (N.of_nat (dupdates ops) < two64)%N) by (unfold few, two64 in *; lia).
  destruct (built_dir_inv OK _ _ _ _ _ _ _ _ B F') as (pops & hist & IV & _ & _).
  assert (U64 : uint64 e).
  { rewrite (latestEpoch_eq _ _ _ _ _ _ _ _ IV) in E. unfold uint64, two64 in *. lia. }
  pose proof (C65_answers C OK _ _ _ _ _ _ _ _ B F D None (WKeyLookupInEpoch name e) d resp (conj U U64)) as X.
  cbn [directory_answer type_of] in X. rewrite A in X. cbn [bind] in X. rewrite (X eq_refl). clear X. f_equal.
  destruct (r_df resp) as [df|] eqn:R.
  - pose proof (inepoch_ge OK _ _ _ _ _ _ _ _ B F' name e resp A) as K. rewrite R in K. specialize (K ltac:(discriminate)).
    replace (length (response_text resp) <=? 8192) with false by (symmetry; apply Nat.leb_gt; rewrite n8192; lia).
    replace (is_error (r_error resp)) with false; [reflexivity|]. revert A. unfold KeyLookupInEpoch.
    destruct (_ || _); [intro H; injection H as <-; discriminate R|].
    destruct (LookupInEpoch _ _ _) as [[ap|]|]; cbn [bind]; [|intro H; injection H as <-; discriminate R|intro H; discriminate H].
    destruct (epochs _ _); cbn [bind]; [|intro H; discriminate H]. destruct (mapM _ _); cbn [bind]; [|intro H; discriminate H].
    destruct (leaf_matches ap) as [[]|]; cbn [bind]; intro H; [| |discriminate H]; injection H as <-; reflexivity.
  - revert A. unfold KeyLookupInEpoch.
    destruct (_ || _). { intro H; injection H as <-. reflexivity. }
    destruct (LookupInEpoch _ _ _) as [[ap|]|]; cbn [bind]; [|intro H; injection H as <-; reflexivity|intro H; discriminate H].
    destruct (epochs _ _); cbn [bind]; [|intro H; discriminate H]. destruct (mapM _ _); cbn [bind]; [|intro H; discriminate H].
    destruct (leaf_matches ap) as [[]|]; cbn [bind]; intro H; [| |discriminate H]; injection H as <-; discriminate R.
Qed.
Print Assumptions C66_old_lookups_unreadable_refuted.

(** Monitoring 17 epochs or more fails in the same way. *)
Theorem C66_long_monitoring_unreadable_refuted : forall (C : Crypto), CryptoOk C ->
  forall dl0 vk sk size r1 r2 ops d, dir_built dl0 vk sk size r1 r2 ops d -> few ops -> deadlines_ok dl0 ops ->
  (forall m, length (snd (vrf_prove vk m)) <= 96) ->
  forall name s e resp, utf8 name -> uint64 e -> (s + 16 <= N.min e (latestEpoch d))%N -> Monitor d name s e = Ok resp ->
  UnmarshalResponse MonitoringType (received (response_text resp)) =
    Ok (if is_error (r_error resp) then resp else NewErrorResponse ErrMalformedMessage).
Proof.
  intros C OK dl0 vk sk size r1 r2 ops d B F D VL name s e resp U U64 E A.
  assert (F' : (N.of_nat (dupdates ops) < two64)%N) by (unfold few, two64 in *; lia).
  assert (Us : uint64 s) by (unfold uint64 in *; lia).
  pose proof (C65_answers C OK _ _ _ _ _ _ _ _ B F D None (WMonitoring name s e) d resp (conj U (conj Us U64))) as X.
  cbn [directory_answer type_of] in X. rewrite A in X. cbn [bind] in X. rewrite (X eq_refl). clear X. f_equal.
  destruct (r_df resp) as [df|] eqn:R.
  - pose proof (monitor_size OK _ _ _ _ _ _ _ _ B F' VL name s e resp A) as K. rewrite R in K. specialize (K ltac:(discriminate)).
    replace (length (response_text resp) <=? 8192) with false by (symmetry; apply Nat.leb_gt; rewrite n8192; lia).
    replace (is_error (r_error resp)) with false; [reflexivity|]. revert A. unfold Monitor.
    destruct (_ || _); [intro H; injection H as <-; discriminate R|].
    destruct (epochs _ _); cbn [bind]; [|intro H; discriminate H].
    destruct (monitor_loop _ _ _) as [[[aps strs]|]|]; cbn [bind]; intro H; [| |discriminate H]; injection H as <-; [reflexivity|discriminate R].
  - revert A. unfold Monitor.
    destruct (_ || _). { intro H; injection H as <-. reflexivity. }
    destruct (epochs _ _); cbn [bind]; [|intro H; discriminate H].
    destruct (monitor_loop _ _ _) as [[[aps strs]|]|]; cbn [bind]; intro H; [| |discriminate H]; injection H as <-; [discriminate R|reflexivity].
Qed.
Print Assumptions C66_long_monitoring_unreadable_refuted.

(** ** The hypotheses are met *)

(** Like [ToyCrypto], with VRF proofs of a fixed length (the code's have 96
    bytes). *)
Definition FixedCrypto : Crypto := {|
  shake := toy_shake; sign_pub := toy_shake; sign_sign := fun sk m => toy_sig (toy_shake sk) m;
  sign_verify := fun pk m s => beq s (toy_sig pk m); vrf_pub := toy_shake;
  vrf_prove := fun sk m => (toy_shake (toy_shake sk ++ m), repeat x00 96);
  vrf_verify := fun pk m i p => beq i (toy_shake (pk ++ m)) |}.
Lemma FixedCrypto_ok : CryptoOk FixedCrypto.
Proof.
  destruct ToyCrypto_ok. constructor; cbn [shake sign_pub sign_sign sign_verify vrf_pub vrf_prove vrf_verify FixedCrypto ToyCrypto fst snd] in *; auto.
  - intros. match goal with H : beq _ _ = true |- _ => apply beq_eq in H; subst end. apply le_bytes_length.
Qed.
Definition text_ops : list dir_op := DRegister (Some [x09]) [x61] [x62] :: repeat DUpdate 24.
Definition text_dir : result Directory :=
  do d0 <- @Directory_New FixedCrypto 60 [x11] [x10] 40 true (Some [x07]) (Some [x08]); @dir_run FixedCrypto d0 text_ops.

(** A directory after one registration and 24 epochs: a lookup is read; a
    lookup of the first epoch and the monitoring of all of them are answered
    with success, and so C66's last two theorems speak about them. *)
Example C66_case : exists d resp1 resp2 resp3,
  @dir_built FixedCrypto 60 [x11] [x10] 40 (Some [x07]) (Some [x08]) text_ops d /\ few text_ops /\ deadlines_ok 60 text_ops /\
  (forall m, length (snd (@vrf_prove FixedCrypto [x11] m)) <= 96) /\
  @KeyLookup FixedCrypto d [x61] = Ok resp1 /\ r_error resp1 = ReqSuccess /\ path_len resp1 <= 32 /\ keys_within 900 resp1 /\
  @KeyLookupInEpoch FixedCrypto d [x61] 0 = Ok resp2 /\ is_error (r_error resp2) = false /\ (0 + 24 <= latestEpoch d)%N /\
  @Monitor FixedCrypto d [x61] 1 24 = Ok resp3 /\ is_error (r_error resp3) = false /\ (1 + 16 <= N.min 24 (latestEpoch d))%N.
Proof.
  assert (H : match text_dir with
    | Ok d => match @KeyLookup FixedCrypto d [x61], @KeyLookupInEpoch FixedCrypto d [x61] 0, @Monitor FixedCrypto d [x61] 1 24 with
      | Ok a, Ok b, Ok c => Z.eqb (r_error a) ReqSuccess && Nat.leb (path_len a) 32 &&
          match r_df a with
          | Some (DProof (Some p)) => match dp_tb p with None => true | Some _ => false end &&
              match dp_ap p with [Some ap] => match ap_leaf ap with Some l => match pn_value l with Some v => Nat.leb (length v) 900 | None => true end | None => true end | _ => false end
          | _ => false end &&
          negb (is_error (r_error b)) && negb (is_error (r_error c)) && N.eqb (latestEpoch d) 24
      | _, _, _ => false end
    | Panic => false end = true) by (vm_compute; reflexivity).
  unfold text_dir in H. destruct (@Directory_New FixedCrypto 60 [x11] [x10] 40 true (Some [x07]) (Some [x08])) as [d0|] eqn:N; [|discriminate H]. cbn [bind] in H.
  destruct (@dir_run FixedCrypto d0 text_ops) as [d|] eqn:R; [|discriminate H].
  destruct (@KeyLookup FixedCrypto d [x61]) as [a|] eqn:A; [|discriminate H].
  destruct (@KeyLookupInEpoch FixedCrypto d [x61] 0) as [b|] eqn:B; [|discriminate H].
  destruct (@Monitor FixedCrypto d [x61] 1 24) as [c|] eqn:M; [|discriminate H].
  rewrite !andb_true_iff, Z.eqb_eq, Nat.leb_le, !negb_true_iff, N.eqb_eq in H. destruct H as (((((H1 & H2) & H3) & H4) & H5) & H6).
  exists d, a, b, c. split; [exists d0; split; [exact N|exact R]|]. split; [reflexivity|].
  split. { split; [reflexivity|]. intros t [K|K]; [discriminate K|]. apply repeat_spec in K. discriminate K. }
  split. { intro m. apply le_n. }
  split; [exact A|]. split; [exact H1|]. split; [exact H2|].
  split. { unfold keys_within. destruct (r_df a) as [[[p|]|?]|]; try exact I; try discriminate H3.
    apply andb_prop in H3 as [T K]. split; [|intros tb E; rewrite E in T; discriminate T].
    destruct (dp_ap p) as [|[ap|] [|? ?]]; try discriminate K. intros ap' leaf v [E|[]] L V. injection E as <-. rewrite L, V in K. apply Nat.leb_le. exact K. }
  split; [exact B|]. split; [exact H4|]. split; [rewrite H6; reflexivity|].
  split; [exact M|]. split; [exact H5|]. rewrite H6. intro Q. discriminate Q.
Qed.

(** Texts as in C65. *)
Example C65_case : json_utf8 (MarshalRequest RegistrationType (WRegistration [x61; xc3; xa9] [x00; xff] true false)) /\
  wf_body (WRegistration [x61; xc3; xa9] [x00; xff] true false) /\
  length (request_text RegistrationType (WRegistration [x61; xc3; xa9] [x00; xff] true false)) <= 8192 /\
  Forall (fun c => plain c = true) [x61; x40; x2e].
Proof.
  assert (W : wf_body (WRegistration [x61; xc3; xa9] [x00; xff] true false)).
  { cbn [wf_body]. constructor; [reflexivity|]. apply u_2; [reflexivity|reflexivity|constructor]. }
  split; [apply request_utf8; intros v E; discriminate E|]. split; [exact W|].
  split; [apply Nat.leb_le; vm_compute; reflexivity|]. repeat constructor.
Qed.
