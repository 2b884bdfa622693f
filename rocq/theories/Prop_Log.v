(** C95: what the server's log tells, and what it does not.

    The log is given by the verdicts on the connections and nothing else; names,
    keys and answers never enter it.  A successful request leaves no trace, a failed
    one exactly one warning.  Refuted: that every refused message can be traced. *)
From Coq Require Import List NArith ZArith Lia Bool Arith Permutation.
From Coq Require Import String.
From Verif Require Import Base Utils Crypto Tree TreeFacts TreeSpec TreeHist PathFacts SoundFacts TreeMain
  STR PAD PADSpec PADFacts PADMain Protocol Directory DirSpec DirFacts DirMain Prop_Directory
  Path Json JsonText Wire Text Conc Server Prop_Server Prop_Text Deploy Repl Log.
Import ListNotations.
Local Open Scope list_scope.
Local Open Scope nat_scope.
Notation length := List.length.

(** ** Specification: what may be learned *)
(** no line of its own in /repo: the verdict on a connection *)
Inductive verdict :=
| Unread (err : bytes)          (* the connection failed before the message was there *)
| NotARequest                   (* the bytes are no request *)
| Refused (t : Z)               (* type not accepted at this address *)
| Answered (code : Z).          (* handed to the directory, answered with this code *)

(** [judged p d v w d' o]: the verdict [w] on the connection [v], with the directory
    before and after and the bytes answered. *)
Inductive judged {C : Crypto} (p : permtable) (d : Directory) (v : visit) : verdict -> Directory -> option bytes -> Prop :=
| j_unread err : v_read v = Broken err -> judged p d v (Unread err) d None
| j_not s : v_read v = Sent s -> obind (received s) UnmarshalRequest = None ->
    judged p d v NotARequest d (Some (response_text (NewErrorResponse ErrMalformedMessage)))
| j_refused s q : v_read v = Sent s -> obind (received s) UnmarshalRequest = Some q -> p (v_at v) (q_type q) = false ->
    judged p d v (Refused (q_type q)) d (Some (response_text (NewErrorResponse ErrMalformedMessage)))
| j_answered s q d' resp : v_read v = Sent s -> obind (received s) UnmarshalRequest = Some q -> p (v_at v) (q_type q) = true ->
    srv_sem p (OMsg (v_at v) (received s) (v_entropy v)) d = Ok (d', Some resp) ->
    judged p d v (Answered (r_error resp)) d' (Some (response_text resp)).

(** What one connection leaves in the log, given its verdict, the peer's address as
    the system reports it, and the error of sending the answer. *)
Definition record_of (w : verdict) (remote : bytes) (werr : option bytes) : list entry :=
  match w with
  | Unread err => [mkEntry Error err [(key "address", VText remote)]]
  | NotARequest => []
  | Refused t => [mkEntry Error (key "Unacceptable message type") [(key "request type", VInt t)]]
  | Answered c => if Z.eqb c ReqSuccess then [] else [mkEntry Warn (error_text c) [(key "address", VText remote)]]
  end ++
  match w, werr with
  | Unread _, _ | _, None => []
  | _, Some err => [mkEntry Error err [(key "address", VText remote)]]
  end.

Section Facts.
  Context {C : Crypto}.
  Lemma client_judged p d v d' o l : acceptClient p d v = Ok (d', o, l) ->
    exists w, judged p d v w d' o /\ l = record_of w (v_remote v) (v_write v).
  Proof.
    unfold acceptClient. destruct (v_read v) as [err|s] eqn:R.
    { intro H; injection H as <- <- <-. exists (Unread err). split; [constructor; exact R|].
      unfold record_of. rewrite app_nil_r. reflexivity. }
    destruct (obind (received s) UnmarshalRequest) as [q|] eqn:U.
    - unfold checkRequestType_log. destruct (p (v_at v) (q_type q)) eqn:P; cbn [bind].
      + destruct (HandleRequests d (v_entropy v) q) as [[d1 resp]|] eqn:H; cbn [bind]; [|intro X; discriminate X].
        intro X; injection X as <- <- <-. exists (Answered (r_error resp)). split.
        * apply (j_answered p d v s q d1 resp R U P). cbn [srv_sem]. unfold accept. rewrite U. unfold checkRequestType.
          rewrite P. cbn iota. rewrite H. cbn [bind]. reflexivity.
        * unfold record_of. cbn [app]. destruct (v_write v); reflexivity.
      + intro X; injection X as <- <- <-. exists (Refused (q_type q)). split; [exact (j_refused p d v s q R U P)|].
        unfold record_of. destruct (v_write v); reflexivity.
    - cbn [bind]. intro X; injection X as <- <- <-. exists NotARequest. split; [exact (j_not p d v s R U)|].
      unfold record_of. destruct (v_write v); reflexivity.
  Qed.
  Lemma judged_client p d v w d' o : judged p d v w d' o -> acceptClient p d v = Ok (d', o, record_of w (v_remote v) (v_write v)).
  Proof.
    intros [err R|s R U|s q R U P|s q d2 resp R U P S]; unfold acceptClient; rewrite R.
    - unfold record_of. rewrite app_nil_r. reflexivity.
    - rewrite U. cbn [bind]. unfold record_of. destruct (v_write v); reflexivity.
    - rewrite U. unfold checkRequestType_log. rewrite P. cbn [bind]. unfold record_of. destruct (v_write v); reflexivity.
    - rewrite U. unfold checkRequestType_log. rewrite P.
      cbn [srv_sem] in S. unfold accept in S. rewrite U in S. unfold checkRequestType in S. rewrite P in S. cbn iota in S.
      destruct (HandleRequests d (v_entropy v) q) as [[d1 r1]|] eqn:H; cbn [bind] in *; [|discriminate S].
      injection S as -> ->. unfold record_of. cbn [app]. destruct (v_write v); reflexivity.
  Qed.
End Facts.

(** Every connection the server survives gets one verdict; it fixes what is logged,
    and conversely. *)
Theorem C95_one_connection : forall (C : Crypto) p d v d' o l,
  acceptClient p d v = Ok (d', o, l) <-> exists w, judged p d v w d' o /\ l = record_of w (v_remote v) (v_write v).
Proof.
  intros C p d v d' o l. split; [apply client_judged|]. intros (w & J & ->). exact (judged_client _ _ _ _ _ _ J).
Qed.
Print Assumptions C95_one_connection.

(** ** Names, keys and answers are not in the log *)
(** What an observer of the log is meant to know about two happenings that look the
    same to it. [d1], [d2] are the directories at the time. *)
Definition alike {C1 C2 : Crypto} (p1 : permtable) (d1 : @Directory) (p2 : permtable) (d2 : @Directory) (h1 h2 : happening) : Prop :=
  match h1, h2 with
  | HVisit v1, HVisit v2 => v_remote v1 = v_remote v2 /\ v_write v1 = v_write v2 /\
      forall w1 w2 d1' d2' o1 o2, @judged C1 p1 d1 v1 w1 d1' o1 -> @judged C2 p2 d2 v2 w2 d2' o2 -> w1 = w2
  | HAccept e1, HAccept e2 => e1 = e2
  | HTick, HTick => True
  | HReload (inl _), HReload (inl _) => True
  | HReload (inr e1), HReload (inr e2) => e1 = e2
  | _, _ => False
  end.
(** Two runs, happening by happening. *)
Inductive runs_alike {C1 C2 : Crypto} (p1 p2 : permtable) : Directory -> Directory -> list happening -> list happening -> Prop :=
| ra_nil d1 d2 : runs_alike p1 p2 d1 d2 [] []
| ra_cons d1 d2 h1 h2 hs1 hs2 : @alike C1 C2 p1 d1 p2 d2 h1 h2 ->
    (forall d1' d2' o1 o2 l1 l2, @happen C1 p1 d1 h1 = Ok (d1', o1, l1) -> @happen C2 p2 d2 h2 = Ok (d2', o2, l2) ->
       runs_alike p1 p2 d1' d2' hs1 hs2) ->
    runs_alike p1 p2 d1 d2 (h1 :: hs1) (h2 :: hs2).

Theorem C95_log_is_verdicts : forall (C1 C2 : Crypto) p1 p2 d1 d2 hs1 hs2,
  @runs_alike C1 C2 p1 p2 d1 d2 hs1 hs2 ->
  forall d1' d2' os1 os2 l1 l2, @serve C1 p1 d1 hs1 = Ok (d1', os1, l1) -> @serve C2 p2 d2 hs2 = Ok (d2', os2, l2) -> l1 = l2.
Proof.
  intros C1 C2 p1 p2 d1 d2 hs1 hs2 A. induction A as [|d1 d2 h1 h2 hs1 hs2 A _ IH]; intros d1' d2' os1 os2 l1 l2; cbn [serve].
  { intros X Y. injection X as _ _ <-. injection Y as _ _ <-. reflexivity. }
  destruct (@happen C1 p1 d1 h1) as [[[e1 o1] m1]|] eqn:H1; cbn [bind]; [|intro X; discriminate X].
  destruct (@serve C1 p1 e1 hs1) as [[[f1 q1] n1]|] eqn:S1; cbn [bind]; [|intro X; discriminate X].
  destruct (@happen C2 p2 d2 h2) as [[[e2 o2] m2]|] eqn:H2; cbn [bind]; [|intros X Y; discriminate Y].
  destruct (@serve C2 p2 e2 hs2) as [[[f2 q2] n2]|] eqn:S2; cbn [bind]; [|intros X Y; discriminate Y].
  intros X Y. injection X as _ _ <-. injection Y as _ _ <-.
  assert (E : m1 = m2).
  { destruct h1 as [v1|e1'| |[x1|x1]], h2 as [v2|e2'| |[x2|x2]]; cbn [alike] in A; try (destruct A; fail); cbn [happen] in H1, H2.
    - destruct A as (R & W & J). apply client_judged in H1 as (w1 & J1 & ->). apply client_judged in H2 as (w2 & J2 & ->).
      rewrite (J _ _ _ _ _ _ J1 J2), R, W. reflexivity.
    - subst. injection H1 as _ _ <-. injection H2 as _ _ <-. reflexivity.
    - injection H1 as _ _ <-. injection H2 as _ _ <-. reflexivity.
    - injection H1 as _ _ <-. injection H2 as _ _ <-. reflexivity.
    - subst. injection H1 as _ _ <-. injection H2 as _ _ <-. reflexivity. }
  rewrite E. apply (f_equal (app m2)). exact (IH _ _ _ _ _ _ eq_refl eq_refl _ _ _ _ _ _ S1 S2).
Qed.
Print Assumptions C95_log_is_verdicts.

(** ** Whole runs: every failure is there, once *)
(** A run and its verdicts: one for each connection, in order. *)
Inductive run_judged {C : Crypto} (p : permtable) : Directory -> list happening -> list (visit * verdict) -> Directory -> Prop :=
| rj_nil d : run_judged p d [] [] d
| rj_visit d v hs w d1 o ws d' : judged p d v w d1 o -> run_judged p d1 hs ws d' -> run_judged p d (HVisit v :: hs) ((v, w) :: ws) d'
| rj_accept d e hs ws d' : run_judged p d hs ws d' -> run_judged p d (HAccept e :: hs) ws d'
| rj_tick d hs ws d' : run_judged p (Directory_Update d) hs ws d' -> run_judged p d (HTick :: hs) ws d'
| rj_reload d n hs ws d' : run_judged p (SetPolicies d n) hs ws d' -> run_judged p d (HReload (inl n) :: hs) ws d'
| rj_noreload d e hs ws d' : run_judged p d hs ws d' -> run_judged p d (HReload (inr e) :: hs) ws d'.

(** The entries that satisfy a test, and their number. *)
Definition field_eqb (x y : bytes * value) : bool :=
  beq (fst x) (fst y) && match snd x, snd y with VText a, VText b => beq a b | VInt a, VInt b => Z.eqb a b | _, _ => false end.
Definition is_warning (c : ErrorCode) (remote : bytes) (e : entry) : bool :=
  match e_sev e with Warn => true | _ => false end && beq (e_msg e) (error_text c) &&
  match e_fields e with [f] => field_eqb f (key "address", VText remote) | _ => false end.
(** The connections from [remote] that the directory answered with code [c]. *)
Definition is_failure (c : ErrorCode) (remote : bytes) (x : visit * verdict) : bool :=
  beq (v_remote (fst x)) remote && match snd x with Answered c' => Z.eqb c' c | _ => false end.
Definition number {A} (f : A -> bool) (l : list A) : nat := length (filter f l).
(** The codes of failed requests (protocol/error.go:16-33). *)
Definition failures : list ErrorCode := [ReqNameExisted; ReqNameNotFound; ErrDirectory; ErrMalformedMessage].

Lemma text_names_code c c' : In c failures -> beq (error_text c') (error_text c) = Z.eqb c' c.
Proof.
  intros I. destruct (Z.eqb_spec c' c) as [->|N]; [apply beq_refl|].
  cbn [In failures] in I.
  assert (D : forall a b : bytes, beq a b = false -> a = b -> False) by (intros a b F E; subst; rewrite beq_refl in F; discriminate F).
  unfold error_text at 1.
  repeat match goal with |- beq (if Z.eqb ?a ?b then _ else _) _ = _ =>
    destruct (Z.eqb_spec a b) as [->|]; [destruct I as [<-|[<-|[<-|[<-|[]]]]]; first [exfalso; apply N; reflexivity|vm_compute; reflexivity]|] end.
  destruct I as [<-|[<-|[<-|[<-|[]]]]]; vm_compute; reflexivity.
Qed.
Lemma number_app {A} (f : A -> bool) a b : number f (a ++ b) = number f a + number f b.
Proof. unfold number. rewrite filter_app, app_length. reflexivity. Qed.
Lemma beq_same (b : bytes) : beq b b = true. Proof. apply beq_refl. Qed.

Lemma record_warnings c remote v w : In c failures ->
  number (is_warning c remote) (record_of w (v_remote v) (v_write v)) = if is_failure c remote (v, w) then 1 else 0.
Proof.
  intro I. unfold record_of. rewrite number_app.
  assert (E : number (is_warning c remote) (match w, v_write v with Unread _, _ | _, None => [] | _, Some err => [mkEntry Error err [(key "address", VText (v_remote v))]] end) = 0)
    by (destruct w, (v_write v); reflexivity).
  rewrite E, Nat.add_0_r. unfold is_failure. cbn [fst snd].
  destruct w as [err| |t|c']; try (rewrite andb_false_r; reflexivity).
  destruct (Z.eqb_spec c' ReqSuccess) as [->|NS].
  { assert (N : Z.eqb ReqSuccess c = false) by (cbn [In failures] in I; destruct I as [<-|[<-|[<-|[<-|[]]]]]; reflexivity).
    rewrite N, andb_false_r. reflexivity. }
  unfold number. cbn [filter]. unfold is_warning. cbn [e_sev e_msg e_fields].
  rewrite (text_names_code c c' I). unfold field_eqb. cbn [fst snd]. rewrite beq_same. cbn [andb].
  destruct (Z.eqb c' c), (beq (v_remote v) remote); reflexivity.
Qed.

Theorem C95_every_failure_once : forall (C : Crypto) p d hs d' os l, serve p d hs = Ok (d', os, l) ->
  exists ws, run_judged p d hs ws d' /\
    forall c remote, In c failures -> number (is_warning c remote) l = number (is_failure c remote) ws.
Proof.
  intros C p d hs. revert d. induction hs as [|h hs IH]; intros d d' os l; cbn [serve].
  { intro X; injection X as <- <- <-. exists []. split; [constructor|]. intros c remote _. reflexivity. }
  destruct (happen p d h) as [[[d1 o] m]|] eqn:H; cbn [bind]; [|intro X; discriminate X].
  destruct (serve p d1 hs) as [[[d2 os'] l']|] eqn:S; cbn [bind]; [|intro X; discriminate X].
  intro X; injection X as <- <- <-. destruct (IH _ _ _ _ S) as (ws & J & K).
  destruct h as [v|e| |[n|e]]; cbn [happen] in H.
  - destruct (client_judged _ _ _ _ _ _ H) as (w & Jv & ->). exists ((v, w) :: ws). split; [econstructor; eassumption|].
    intros c remote I. rewrite number_app, (record_warnings c remote v w I), (K c remote I). unfold number at 2. cbn [filter].
    destruct (is_failure c remote (v, w)); reflexivity.
  - injection H as <- <- <-. exists ws. split; [constructor; exact J|]. intros c remote I. rewrite number_app, (K c remote I). reflexivity.
  - injection H as <- <- <-. exists ws. split; [constructor; exact J|]. intros c remote I. rewrite number_app, (K c remote I). reflexivity.
  - injection H as <- <- <-. exists ws. split; [constructor; exact J|]. intros c remote I. rewrite number_app, (K c remote I). reflexivity.
  - injection H as <- <- <-. exists ws. split; [constructor; exact J|]. intros c remote I. rewrite number_app, (K c remote I). reflexivity.
Qed.
Print Assumptions C95_every_failure_once.

(** ** Successes leave nothing, epochs leave nothing *)
Theorem C95_silent : forall (C : Crypto) p d,
  (forall v d' resp o l q s, v_read v = Sent s -> obind (received s) UnmarshalRequest = Some q -> p (v_at v) (q_type q) = true ->
     srv_sem p (OMsg (v_at v) (received s) (v_entropy v)) d = Ok (d', Some resp) -> r_error resp = ReqSuccess -> v_write v = None ->
     acceptClient p d v = Ok (d', o, l) -> l = []) /\
  happen p d HTick = Ok (Directory_Update d, None, []) /\
  (forall r, exists d' e, happen p d (HReload r) = Ok (d', None, [e]) /\
     (e_msg e = key "Policies reloaded!" /\ e_sev e = Info <-> exists n, r = inl n) /\
     (forall n, r = inl n -> d' = SetPolicies d n) /\ (forall err, r = inr err -> d' = d)).
Proof.
  intros C p d. split; [|split; [reflexivity|]].
  - intros v d' resp o l q s R U P S E W A.
    pose proof (judged_client _ _ _ _ _ _ (j_answered p d v s q d' resp R U P S)) as B. rewrite A in B. injection B as _ ->.
    unfold record_of. rewrite E, W. reflexivity.
  - intros [n|err].
    + exists (SetPolicies d n), (mkEntry Info (key "Policies reloaded!") []). split; [reflexivity|].
      split; [split; [intros _; exists n; reflexivity|intros _; split; reflexivity]|].
      split; [intros m X; injection X as <-; reflexivity|intros e X; discriminate X].
    + exists d, (mkEntry Error err []). split; [reflexivity|].
      split; [split; [intros [_ X]; discriminate X|intros [n X]; discriminate X]|].
      split; [intros m X; discriminate X|intros e X; reflexivity].
Qed.
Print Assumptions C95_silent.

(** ** What can be read off the log about names *)
(** With an honest directory: whether a name is registered.  [at_]: an address that
    accepts lookups. *)
Theorem C95_log_tells_who_is_missing : forall (C : Crypto), CryptoOk C ->
  forall dl0 vk sk size r1 r2 ops d name, dir_built dl0 vk sk size r1 r2 ops d -> few ops -> vrf_good vk (name :: names_of ops) ->
  name <> [] -> utf8 name -> length (request_text KeyLookupType (WKeyLookup name)) <= 8192 ->
  forall (p : permtable) at_ remote r, p at_ KeyLookupType = true ->
  exists o, acceptClient p d (mkVisit at_ remote (Sent (request_text KeyLookupType (WKeyLookup name))) r None) =
    Ok (d, o, match reg ops name with
              | Some _ => []
              | None => [mkEntry Warn (key "[coniks] Searched name not found in directory") [(key "address", VText remote)]]
              end).
Proof.
  intros C OK dl0 vk sk size r1 r2 ops d name B F VG NN U L p at_ remote r P.
  destruct (C24_key_lookup C OK _ _ _ _ _ _ _ _ _ B F VG NN) as (ap & _ & _ & K).
  assert (R : obind (received (request_text KeyLookupType (WKeyLookup name))) UnmarshalRequest = Some (mkReq KeyLookupType (WKeyLookup name))).
  { exact (C65_requests_arrive (WKeyLookup name) U L). }
  assert (S : forall resp, KeyLookup d name = Ok resp ->
    acceptClient p d (mkVisit at_ remote (Sent (request_text KeyLookupType (WKeyLookup name))) r None) =
    Ok (d, Some (response_text resp), record_of (Answered (r_error resp)) remote None)).
  { intros resp E. apply (judged_client p d (mkVisit at_ remote (Sent (request_text KeyLookupType (WKeyLookup name))) r None)).
    eapply j_answered; [reflexivity|exact R|exact P|]. cbn [v_at v_entropy srv_sem]. unfold accept. rewrite R.
    unfold checkRequestType. cbn [q_type]. rewrite P. unfold HandleRequests. cbn [q_type q_body].
    change (Z.eqb KeyLookupType RegistrationType) with false. change (Z.eqb KeyLookupType KeyLookupType) with true. cbn iota.
    rewrite E. reflexivity. }
  assert (VR : visible ops name <> None -> reg ops name <> None).
  { intros V. destruct (visible ops name) as [k|] eqn:E; [|exfalso; apply V; reflexivity].
    rewrite (visible_reg ops name k E). intro X; discriminate X. }
  destruct (visible ops name) as [k|].
  { destruct (reg ops name) as [k'|]; [|exfalso; apply VR; [intro X; discriminate X|reflexivity]].
    eexists. rewrite (S _ K). reflexivity. }
  destruct (reg ops name) as [k|].
  - destruct K as (tb & K & _). eexists. rewrite (S _ K). reflexivity.
  - eexists. rewrite (S _ K). reflexivity.
Qed.
Print Assumptions C95_log_tells_who_is_missing.

(** ** Refuted: "every refused message can be traced to its sender" *)
(** Bytes that are no request leave no trace at all, whoever sends them. *)
Theorem C95_garbage_untraced_refuted : forall (C : Crypto) p d at_ remote s r,
  obind (received s) UnmarshalRequest = None ->
  acceptClient p d (mkVisit at_ remote (Sent s) r None) = Ok (d, Some (response_text (NewErrorResponse ErrMalformedMessage)), []).
Proof.
  intros C p d at_ remote s r U. exact (judged_client _ _ _ _ _ _ (j_not p d (mkVisit at_ remote (Sent s) r None) s eq_refl U)).
Qed.
Print Assumptions C95_garbage_untraced_refuted.
(** Messages of a type not accepted at the address are logged, but not who sent them. *)
Theorem C95_refused_anonymous_refuted : forall (C : Crypto) p d at_ remote s q r,
  obind (received s) UnmarshalRequest = Some q -> p at_ (q_type q) = false ->
  acceptClient p d (mkVisit at_ remote (Sent s) r None) =
    Ok (d, Some (response_text (NewErrorResponse ErrMalformedMessage)),
        [mkEntry Error (key "Unacceptable message type") [(key "request type", VInt (q_type q))]]).
Proof.
  intros C p d at_ remote s q r U P. exact (judged_client _ _ _ _ _ _ (j_refused p d (mkVisit at_ remote (Sent s) r None) s q eq_refl U P)).
Qed.
Print Assumptions C95_refused_anonymous_refuted.

(** ** The messages themselves *)
(** The texts of errors of the system (the network, reading the configuration). *)
Definition system_errors (hs : list happening) : list bytes :=
  flat_map (fun h => match h with
    | HVisit v => match v_read v with Broken e => [e] | Sent _ => [] end ++ match v_write v with Some e => [e] | None => [] end
    | HAccept e => [e] | HTick => [] | HReload (inl _) => [] | HReload (inr e) => [e] end) hs.
(** Everything else is written in the program: nobody can put a line of his own, or a
    line break, into the log. *)
Definition one_line (m : bytes) : Prop := Forall (fun b => in_rng 32 126 b = true) m.
Lemma error_text_line c : one_line (error_text c).
Proof.
  unfold one_line, error_text.
  repeat match goal with |- Forall _ (if ?b then _ else _) => destruct b; [apply Forall_forall, forallb_forall; vm_compute; reflexivity|] end.
  constructor.
Qed.
Theorem C95_no_forged_lines : forall (C : Crypto) p d hs d' os l, serve p d hs = Ok (d', os, l) ->
  forall e, In e l -> one_line (e_msg e) \/ In (e_msg e) (system_errors hs).
Proof.
  intros C p d hs. revert d. induction hs as [|h hs IH]; intros d d' os l; cbn [serve].
  { intro X; injection X as <- <- <-. intros e []. }
  destruct (happen p d h) as [[[d1 o] m]|] eqn:H; cbn [bind]; [|intro X; discriminate X].
  destruct (serve p d1 hs) as [[[d2 os'] l']|] eqn:S; cbn [bind]; [|intro X; discriminate X].
  intro X; injection X as <- <- <-. intros e I. unfold system_errors. cbn [flat_map]. rewrite in_app_iff.
  apply in_app_or in I as [I|I]; [|destruct (IH _ _ _ _ S e I) as [K|K]; [left; exact K|right; right; exact K]].
  destruct h as [v|x| |[n|x]]; cbn [happen] in H.
  - destruct (client_judged _ _ _ _ _ _ H) as (w & J & ->). unfold record_of in I. apply in_app_or in I as [I|I].
    + inversion J; subst; cbn [In] in I.
      * destruct I as [<-|[]]. right; left. rewrite H0. left; reflexivity.
      * destruct I.
      * destruct I as [<-|[]]. left. cbn [e_msg]. unfold one_line. apply Forall_forall, forallb_forall; vm_compute; reflexivity.
      * destruct (Z.eqb (r_error resp) ReqSuccess); [destruct I|]. destruct I as [<-|[]]. left. apply error_text_line.
    + assert (I' : exists err, v_write v = Some err /\ e_msg e = err).
      { destruct w, (v_write v) as [er|]; cbn [In] in I; try (destruct I; fail); destruct I as [<-|[]]; exists er; split; reflexivity. }
      destruct I' as (er & W & ->). right; left. rewrite W. apply in_or_app. right. left. reflexivity.
  - injection H as <- <- <-. destruct I as [<-|[]]. right; left; left; reflexivity.
  - injection H as <- <- <-. destruct I.
  - injection H as <- <- <-. destruct I as [<-|[]]. left. cbn [e_msg]. unfold one_line. apply Forall_forall, forallb_forall; vm_compute; reflexivity.
  - injection H as <- <- <-. destruct I as [<-|[]]. right; left; left; reflexivity.
Qed.
Print Assumptions C95_no_forged_lines.

(** Both environments that [NewLogger] accepts write the whole log. *)
Theorem C95_environment : forall (C : Crypto) p d hs d' os l, serve p d hs = Ok (d', os, l) -> forall env, written env l = l.
Proof.
  intros C p d hs d' os l S env.
  assert (A : forall e, In e l -> e_sev e <> Debug).
  { revert d d' os l S. induction hs as [|h hs IH]; intros d d' os l; cbn [serve].
    { intro X; injection X as <- <- <-. intros e []. }
    destruct (happen p d h) as [[[d1 o] m]|] eqn:H; cbn [bind]; [|intro X; discriminate X].
    destruct (serve p d1 hs) as [[[d2 os'] l']|] eqn:S; cbn [bind]; [|intro X; discriminate X].
    intro X; injection X as <- <- <-. intros e I. apply in_app_or in I as [I|I]; [|exact (IH _ _ _ _ S e I)].
    destruct h as [v|x| |[n|x]]; cbn [happen] in H.
    - destruct (client_judged _ _ _ _ _ _ H) as (w & J & ->). unfold record_of in I.
      destruct w as [err| |t|c]; [|destruct (v_write v)|destruct (v_write v)|destruct (Z.eqb c ReqSuccess), (v_write v)];
        cbn [In app] in I; repeat (destruct I as [<-|I]; [intro X; discriminate X|]); destruct I.
    - injection H as <- <- <-. destruct I as [<-|[]]. intro X; discriminate X.
    - injection H as <- <- <-. destruct I.
    - injection H as <- <- <-. destruct I as [<-|[]]. intro X; discriminate X.
    - injection H as <- <- <-. destruct I as [<-|[]]. intro X; discriminate X. }
  unfold written. clear S. induction l as [|e l IH]; [reflexivity|]. cbn [filter].
  assert (E : enabled env (e_sev e) = true).
  { unfold enabled. destruct (EqualFold _ env); [reflexivity|]. specialize (A e (or_introl eq_refl)).
    destruct (e_sev e); try reflexivity. exfalso. apply A. reflexivity. }
  rewrite E, IH; [reflexivity|]. intros x I. apply A. right. exact I.
Qed.
Print Assumptions C95_environment.

(** ** Starting the server *)
(** The entry of the address with number [fst x], with the text [snd x]. *)
Definition listening (addrs : list (bytes * bool)) (x : nat * bytes) : entry :=
  mkEntry Info (snd x) [(key "address", VText (fst (nth (fst x) addrs ([], false))))].
(** Some address with a number below [n] permits registration. *)
Definition permitting (addrs : list (bytes * bool)) (n : nat) : Prop := exists i a, i < n /\ nth_error addrs i = Some (a, true).
Definition warning : entry := mkEntry Warn (key "None of the addresses permit registration") [].

Section Run.
  Variable addrs : list (bytes * bool).
  Definition assigned (pc : run_pc) : nat := match pc with AtAssign i => i | AtStart i => S i | _ => length addrs end.
  Definition started (pc : run_pc) : nat := match pc with AtAssign i => i | AtStart i => i | _ => length addrs end.
  Definition verb_is (n : nat) (v : bytes) : Prop := (permitting addrs n /\ v = verb1) \/ (~ permitting addrs n /\ v = verb0).
  Definition good_entry (x : nat * bytes) : Prop :=
    (snd x = verb0 \/ snd x = verb1) /\ (permitting addrs (S (fst x)) -> snd x = verb1) /\ (snd x = verb1 -> permitting addrs (length addrs)).
  Record run_inv (s : run_state) : Prop := {
    ri_verb : verb_is (assigned (rs_pc s)) (rs_verb s);
    ri_pc : match rs_pc s with AtAssign i => i <= length addrs | AtStart i => i < length addrs | _ => True end;
    ri_log : exists L W, Permutation (rs_log s) (map (listening addrs) L ++ W) /\ Permutation (map fst L ++ rs_waiting s) (seq 0 (started (rs_pc s))) /\
       Forall good_entry L /\
       match rs_pc s with Serving => (permitting addrs (length addrs) /\ W = []) \/ (~ permitting addrs (length addrs) /\ W = [warning]) | _ => W = [] end }.

  Lemma permitting_mono n m : n <= m -> permitting addrs n -> permitting addrs m.
  Proof. intros L (i & a & I & E). exists i, a. split; [lia|exact E]. Qed.
  Lemma permitting_all n : permitting addrs n -> permitting addrs (length addrs).
  Proof. intros (i & a & _ & E). exists i, a. split; [|exact E]. apply nth_error_Some. rewrite E. intro X; discriminate X. Qed.
  Lemma permitting_exists : existsb snd addrs = true <-> permitting addrs (length addrs).
  Proof.
    rewrite existsb_exists. split.
    - intros ((a & b) & I & E). cbn [snd] in E. subst b. apply In_nth_error in I as (i & I). apply (permitting_all (S i)). exists i, a. auto.
    - intros (i & a & _ & E). exists (a, true). split; [exact (nth_error_In _ _ E)|reflexivity].
  Qed.
  Lemma inv_run s : run_reaches addrs s -> run_inv s.
  Proof.
    intro R. induction R as [|s s' R I ST].
    { constructor; cbn.
      - right. split; [intros (i & a & L & _); lia|reflexivity].
      - lia.
      - exists [], []. repeat split; constructor. }
    destruct I as [V P (L & W & PL & PS & G & PW)]. destruct ST as [i a allow v w l E|i v w l|v w l|v w l|pc v w1 j w2 l a allow E]; cbn [rs_pc rs_verb rs_waiting rs_log assigned started] in *.
    - constructor; cbn [rs_pc rs_verb rs_waiting rs_log assigned started].
      + destruct allow.
        * left. split; [exists i, a; split; [lia|exact E]|reflexivity].
        * destruct V as [[PV ->]|[NV ->]]; [left; split; [apply (permitting_mono i); [lia|exact PV]|reflexivity]|].
          right. split; [|reflexivity]. intros (k & b & LK & EK). destruct (Nat.eq_dec k i) as [->|NE].
          -- rewrite E in EK. discriminate EK.
          -- apply NV. exists k, b. split; [lia|exact EK].
      + apply nth_error_Some. rewrite E. intro X; discriminate X.
      + exists L, W. auto.
    - constructor; cbn [rs_pc rs_verb rs_waiting rs_log assigned started]; [exact V|lia|].
      exists L, W. split; [exact PL|]. split; [|auto]. rewrite seq_S. cbn [Nat.add].
      apply Permutation_trans with (i :: (map fst L ++ w)); [symmetry; apply Permutation_middle|].
      apply Permutation_trans with (i :: seq 0 i); [apply perm_skip, PS|]. apply Permutation_cons_append.
    - constructor; cbn [rs_pc rs_verb rs_waiting rs_log assigned started]; [exact V|exact Logic.I|]. exists L, W. auto.
    - constructor; cbn [rs_pc rs_verb rs_waiting rs_log assigned started]; [exact V|exact Logic.I|]. subst W. rewrite app_nil_r in PL.
      destruct (existsb snd addrs) eqn:X.
      + apply permitting_exists in X. exists L, []. rewrite !app_nil_r. auto 6.
      + assert (N : ~ permitting addrs (length addrs)) by (intro Y; apply permitting_exists in Y; rewrite X in Y; discriminate Y).
        exists L, [warning]. split; [apply Permutation_app_tail, PL|]. auto 6.
    - constructor; cbn [rs_pc rs_verb rs_waiting rs_log]; [exact V|exact P|].
      assert (J : j < started pc).
      { assert (I : In j (seq 0 (started pc))).
        { apply (Permutation_in j PS). apply in_or_app. right. apply in_or_app. right. left. reflexivity. }
        apply in_seq in I. lia. }
      assert (JA : started pc <= assigned pc) by (destruct pc; cbn; lia).
      exists (L ++ [(j, v)]), W. split; [|split; [|split]].
      + rewrite map_app. cbn [map]. unfold listening at 2. cbn [fst snd]. rewrite (nth_error_nth addrs j ([], false) E). cbn [fst].
        unfold address.
        apply Permutation_trans with ((map (listening addrs) L ++ W) ++ [mkEntry Info v [(key "address", VText a)]]); [apply Permutation_app_tail, PL|].
        rewrite <- !app_assoc. apply Permutation_app_head, Permutation_app_comm.
      + rewrite map_app. cbn [map fst]. apply Permutation_trans with (map fst L ++ w1 ++ j :: w2); [|exact PS].
        rewrite <- app_assoc. apply Permutation_app_head. cbn [app]. apply Permutation_middle.
      + apply Forall_app. split; [exact G|]. constructor; [|constructor]. unfold good_entry. cbn [fst snd].
        destruct V as [[PV ->]|[NV ->]].
        * split; [right; reflexivity|]. split; [intros _; reflexivity|]. intros _. exact (permitting_all _ PV).
        * split; [left; reflexivity|]. split; [intro Y; exfalso; apply NV; apply (permitting_mono (S j)); [lia|exact Y]|].
          intro Y; vm_compute in Y; discriminate Y.
      + exact PW.
  Qed.
End Run.

(** When all goroutines have run, there is one entry for each address, whatever the
    order in which they ran; it says "Accepting registrations" if this address or one
    before it permits registration; it says "Listen" if no address does; and a warning
    is there exactly in this case. *)
Theorem C95_listening_log : forall addrs s, run_reaches addrs s -> rs_pc s = Serving -> rs_waiting s = [] ->
  exists L, Permutation (map fst L) (seq 0 (length addrs)) /\
    (forall j v, In (j, v) L -> (v = key "Listen" \/ v = key "Accepting registrations") /\
       (permitting addrs (S j) -> v = key "Accepting registrations") /\
       (v = key "Accepting registrations" -> permitting addrs (length addrs))) /\
    ((permitting addrs (length addrs) /\ Permutation (rs_log s) (map (listening addrs) L)) \/
     (~ permitting addrs (length addrs) /\ Permutation (rs_log s) (map (listening addrs) L ++ [warning]))).
Proof.
  intros addrs s R PC WA. destruct (inv_run addrs s R) as [V P (L & W & PL & PS & G & PW)]. rewrite PC in *. rewrite WA, app_nil_r in PS.
  exists L. split; [exact PS|]. split.
  - intros j v I. pose proof (proj1 (Forall_forall _ _) G (j, v) I) as X. exact X.
  - destruct PW as [[Y ->]|[Y ->]]; [left; rewrite app_nil_r in PL|right]; auto.
Qed.
Print Assumptions C95_listening_log.

(** Refuted: "the log says at which addresses registrations are accepted".  After an
    address that permits registration all others are announced as doing so too, as with
    the addresses that [coniksserver init] writes. *)
Theorem C95_announcement_refuted : forall addrs s j a, run_reaches addrs s -> rs_pc s = Serving -> rs_waiting s = [] ->
  nth_error addrs j = Some (a, false) -> permitting addrs j ->
  In (mkEntry Info (key "Accepting registrations") [(key "address", VText a)]) (rs_log s).
Proof.
  intros addrs s j a R PC WA E P. destruct (C95_listening_log addrs s R PC WA) as (L & PS & G & X).
  assert (I : In j (map fst L)).
  { apply (Permutation_in j (Permutation_sym PS)). apply in_seq. split; [lia|]. cbn. apply nth_error_Some. rewrite E. intro Y; discriminate Y. }
  apply in_map_iff in I as ((k & v) & EK & I). cbn [fst] in EK. subst k.
  destruct (G j v I) as (_ & G1 & _). rewrite G1 in I by (apply (permitting_mono addrs j); [lia|exact P]).
  apply (in_map (listening addrs)) in I. unfold listening at 1 in I. cbn [fst snd] in I. rewrite (nth_error_nth addrs j ([], false) E) in I. cbn [fst] in I.
  destruct X as [[_ X]|[_ X]]; apply (Permutation_in _ (Permutation_sym X)); [exact I|apply in_or_app; left; exact I].
Qed.
Print Assumptions C95_announcement_refuted.

(** Goroutines read the text while the loop may be writing it: exactly if an address
    other than the first permits registration. *)
Theorem C95_verb_race : forall addrs,
  (exists s, run_reaches addrs s /\ verb_race addrs s) <-> (exists i a, 0 < i /\ nth_error addrs i = Some (a, true)).
Proof.
  intro addrs. split.
  - intros (s & R & i & a & PC & E & WN). destruct (inv_run addrs s R) as [_ _ (L & W & _ & PS & _)]. rewrite PC in PS. cbn [started] in PS.
    exists i, a. split; [|exact E]. destruct i; [|lia]. cbn [seq] in PS. exfalso. apply WN.
    apply Permutation_sym, Permutation_nil in PS. apply app_eq_nil in PS as [_ PS]. exact PS.
  - intros (i & a & P & E).
    assert (LI : i < length addrs) by (apply nth_error_Some; rewrite E; intro X; discriminate X).
    assert (A : forall k, k <= length addrs -> exists v, run_reaches addrs (mkRun (AtAssign k) v (rev (seq 0 k)) [])).
    { induction k as [|k IH]; intro LK; [exists verb0; exact (rr_init addrs)|].
      destruct (IH ltac:(lia)) as (v & R). destruct (nth_error addrs k) as [[b allow]|] eqn:EK; [|apply nth_error_None in EK; lia].
      exists (if allow then verb1 else v). rewrite seq_S. cbn [Nat.add]. rewrite rev_app_distr. cbn [rev app].
      eapply rr_step; [eapply rr_step; [exact R|eapply rs_assign; exact EK]|apply rs_start]. }
    destruct (A i ltac:(lia)) as (v & R). eexists. split; [exact R|]. exists i, a. cbn [rs_pc rs_waiting]. split; [reflexivity|]. split; [exact E|].
    destruct i; [lia|]. rewrite seq_S, rev_app_distr. cbn [rev app]. intro X; discriminate X.
Qed.
Print Assumptions C95_verb_race.

(** ** Cases *)
Definition case_dir : option (@Directory) := match @Directory_New ToyCrypto 60 [x01] [x02] 10 true (Some [x07]) (Some [x08]) with Ok d => Some d | Panic => None end.
Definition case_perms : permtable := permissions [mkAddress 0 true; mkAddress 1 false].
Definition alice : bytes := key "alice".
Definition case_visit (at_ : nat) (from : String.string) (text : bytes) : happening := HVisit (mkVisit at_ (key from) (Sent text) (Some [x09]) None).
(** A registration, a lookup of a name that is not there, something that is no request,
    a registration at the wrong address, a tick, a reload, a failed read, a second registration. *)
Definition case_run : list happening :=
  [case_visit 0 "p1" (request_text RegistrationType (WRegistration alice (key "k") false false));
   case_visit 1 "p2" (request_text KeyLookupType (WKeyLookup (key "bob")));
   case_visit 1 "p3" (key "GET / HTTP/1.1");
   case_visit 1 "p4" (request_text RegistrationType (WRegistration (key "bob") (key "k") false false));
   HTick; HReload (inl 30%N); HVisit (mkVisit 1 (key "p5") (Broken (key "i/o timeout")) None None);
   case_visit 0 "p6" (request_text RegistrationType (WRegistration alice (key "j") false false))].
Example C95_case_run : match case_dir with Some d => match @serve ToyCrypto case_perms d case_run with Ok (_, _, l) => Some l | Panic => None end | None => None end =
  Some [mkEntry Warn (key "[coniks] Searched name not found in directory") [(key "address", VText (key "p2"))];
        mkEntry Error (key "Unacceptable message type") [(key "request type", VInt RegistrationType)];
        mkEntry Info (key "Policies reloaded!") [];
        mkEntry Error (key "i/o timeout") [(key "address", VText (key "p5"))];
        mkEntry Warn (key "[coniks] Registering identity is already registered") [(key "address", VText (key "p6"))]].
Proof. vm_compute. reflexivity. Qed.

(** Two runs that look the same to the log: lookups of different names, not there. *)
Lemma case_alike : forall d, case_dir = Some d ->
  @runs_alike ToyCrypto ToyCrypto case_perms case_perms d d
    [case_visit 1 "p2" (request_text KeyLookupType (WKeyLookup (key "bob")))]
    [case_visit 1 "p2" (request_text KeyLookupType (WKeyLookup (key "carol")))].
Proof.
  intros d D.
  assert (A : forall n, n = key "bob" \/ n = key "carol" ->
    obind (received (request_text KeyLookupType (WKeyLookup n))) UnmarshalRequest = Some (mkReq KeyLookupType (WKeyLookup n)) /\
    match @srv_sem ToyCrypto case_perms (OMsg 1 (received (request_text KeyLookupType (WKeyLookup n))) (Some [x09])) d with Ok (_, Some r) => r_error r = ReqNameNotFound | _ => False end).
  { intros n N. unfold case_dir in D. destruct (@Directory_New ToyCrypto 60 [x01] [x02] 10 true (Some [x07]) (Some [x08])) as [d0|] eqn:E; [|discriminate D].
    injection D as <-. assert (X : @Directory_New ToyCrypto 60 [x01] [x02] 10 true (Some [x07]) (Some [x08]) =
      ltac:(let v := eval vm_compute in (@Directory_New ToyCrypto 60 [x01] [x02] 10 true (Some [x07]) (Some [x08])) in exact v)) by (vm_compute; reflexivity).
    rewrite X in E. injection E as <-. destruct N as [-> | ->]; (split; [vm_compute; reflexivity|vm_compute; reflexivity]). }
  assert (J : forall n w d' o, n = key "bob" \/ n = key "carol" ->
    @judged ToyCrypto case_perms d (mkVisit 1 (key "p2") (Sent (request_text KeyLookupType (WKeyLookup n))) (Some [x09]) None) w d' o -> w = Answered ReqNameNotFound).
  { intros n w d' o N Jd. destruct (A n N) as (U & S).
    remember (mkVisit 1 (key "p2") (Sent (request_text KeyLookupType (WKeyLookup n))) (Some [x09]) None) as v eqn:EV.
    destruct Jd as [err R|s R U'|s q R U' P|s q d2 resp R U' P S'].
    - rewrite EV in R. discriminate R.
    - rewrite EV in R. injection R as <-. rewrite U in U'. discriminate U'.
    - rewrite EV in R. injection R as <-. rewrite U in U'. injection U' as <-. rewrite EV in P. discriminate P.
    - rewrite EV in R, S'. injection R as <-. cbn [v_at v_entropy] in S'. rewrite S' in S. rewrite S. reflexivity. }
  constructor.
  - unfold alike, case_visit. split; [reflexivity|]. split; [reflexivity|]. intros w1 w2 d1' d2' o1 o2 J1 J2.
    rewrite (J _ _ _ _ (or_introl eq_refl) J1), (J _ _ _ _ (or_intror eq_refl) J2). reflexivity.
  - intros d1' d2' o1 o2 l1 l2 _ _. constructor.
Qed.

(** The default addresses: a finished run, with the misleading line; and a race if the
    order is the other way round. *)
Definition default_addrs : list (bytes * bool) := [(key "unix:///tmp/coniks.sock", true); (key "tcp://0.0.0.0:3000", false)].
Example C95_case_start : exists s, run_reaches default_addrs s /\ rs_pc s = Serving /\ rs_waiting s = [] /\ permitting default_addrs 1 /\
  rs_log s = [mkEntry Info (key "Accepting registrations") [address (key "tcp://0.0.0.0:3000")];
              mkEntry Info (key "Accepting registrations") [address (key "unix:///tmp/coniks.sock")]].
Proof.
  eexists. split.
  { eapply rr_step; [eapply rr_step; [eapply rr_step; [eapply rr_step; [eapply rr_step; [eapply rr_step; [eapply rr_step; [eapply rr_step; [apply rr_init|]|]|]|]|]|]|]|].
    - eapply rs_assign; reflexivity.
    - apply rs_start.
    - eapply rs_assign; reflexivity.
    - apply rs_start.
    - eapply (rs_log1 default_addrs _ _ [] 1 [0]); reflexivity.
    - apply (rs_out default_addrs).
    - apply rs_warn.
    - eapply (rs_log1 default_addrs _ _ [] 0 []); reflexivity. }
  split; [reflexivity|]. split; [reflexivity|]. split; [exists 0, (key "unix:///tmp/coniks.sock"); split; [lia|reflexivity]|]. reflexivity.
Qed.
Example C95_case_race : exists i a, 0 < i /\ nth_error (rev default_addrs) i = Some (a, true).
Proof. exists 1, (key "unix:///tmp/coniks.sock"). split; [lia|reflexivity]. Qed.
