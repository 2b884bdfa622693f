(** C57: what the command-line client tells its user. *)
From Coq Require Import List NArith ZArith Lia Bool Arith.
From Verif Require Import Base Utils Crypto Tree TreeSpec STR PAD PADSpec PADFacts PADMain Protocol Directory DirSpec DirFacts DirMain
  Auditor AudSpec AudFacts Client ClientSpec ClientFacts JointFacts Prop_Directory Prop_Client Json Wire ServerWire Conc Server Prop_Server Cli.
Import ListNotations.

(** ** Against any server *)

Lemma accepted_code {C : Crypto} cc t msg name key : acceptable cc t msg name key ->
  (t = RegistrationType /\ (r_error msg = ReqSuccess \/ r_error msg = ReqNameExisted)) \/
  (t = KeyLookupType /\ (r_error msg = ReqSuccess \/ r_error msg = ReqNameNotFound)).
Proof.
  intros (df & ap & aps & s & strs & pol & b & leaf & pt & _ & _ & _ & _ & _ & _ & _ & _ & _ & _ & X).
  destruct pt; intuition auto.
Qed.
Lemma accepted_acceptable {C : Crypto} cc t msg name key cc' : cc_useTBs cc = true ->
  HandleResponse cc t msg name key = Ok (cc', None) -> acceptable cc t msg name key.
Proof. intros U H. apply C31_accepts_iff; eauto. Qed.

(** The four good news are given exactly when the answer passes all checks
    ([acceptable], ClientSpec.v) with the corresponding code. *)
Theorem C57_good_news_iff : forall (C : Crypto) cc j name key, cc_useTBs cc = true ->
  ((exists cc', register cc (Some j) name key = Ok (cc', SRegistered name)) <->
   (exists msg, UnmarshalResponse RegistrationType j = Ok msg /\ r_error msg = ReqSuccess /\
      acceptable cc RegistrationType msg name (Some key))) /\
  ((exists cc', register cc (Some j) name key = Ok (cc', SAlreadyRegistered)) <->
   (exists msg, UnmarshalResponse RegistrationType j = Ok msg /\ r_error msg = ReqNameExisted /\
      acceptable cc RegistrationType msg name (Some key))) /\
  ((exists cc' k, keyLookup cc (Some j) name = Ok (cc', SFound k)) <->
   (exists msg, UnmarshalResponse KeyLookupType j = Ok msg /\ r_error msg = ReqSuccess /\
      acceptable cc KeyLookupType msg name (stored_key cc name))) /\
  ((exists cc', keyLookup cc (Some j) name = Ok (cc', SNotRegistered)) <->
   (exists msg, UnmarshalResponse KeyLookupType j = Ok msg /\ r_error msg = ReqNameNotFound /\
      acceptable cc KeyLookupType msg name (stored_key cc name))).
Proof.
  intros C cc j name key U. unfold register, keyLookup.
  assert (R : forall t k e s (f : Response -> option ErrorCode -> said),
    (forall msg err, f msg err = s -> err = None /\ r_error msg = e) ->
    (forall msg, r_error msg = e -> f msg None = s) ->
    ((exists cc', (do response <- UnmarshalResponse t j; do (cc', err) <- HandleResponse cc t response name k; Ok (cc', f response err)) = Ok (cc', s)) <->
     (exists msg, UnmarshalResponse t j = Ok msg /\ r_error msg = e /\ acceptable cc t msg name k))).
  { intros t k e s f F1 F2. split.
    - intros (cc' & H). destruct (UnmarshalResponse t j) as [msg|]; cbn [bind] in H; [|discriminate H].
      destruct (HandleResponse cc t msg name k) as [[cc1 err]|] eqn:E; cbn [bind] in H; [|discriminate H].
      injection H as <- H. destruct (F1 _ _ H) as (-> & E'). exists msg. split; auto. split; auto. eapply accepted_acceptable; eauto.
    - intros (msg & -> & E & A). cbn [bind]. apply C31_accepts_iff in A; auto. destruct A as (cc' & ->). cbn [bind].
      exists cc'. rewrite F2 by auto. reflexivity. }
  split; [|split; [|split]].
  - apply (R RegistrationType (Some key) ReqSuccess).
    + intros msg [e|] H.
      * destruct (Z.eqb e CheckBadSTR); [discriminate H|]. destruct (Z.eqb e CheckBindingsDiffer); [|discriminate H].
        destruct (Z.eqb _ _); [discriminate H|]. destruct (Z.eqb _ _); discriminate H.
      * destruct (Z.eqb_spec (r_error msg) ReqSuccess); auto. destruct (Z.eqb _ _); discriminate H.
    + intros msg ->. reflexivity.
  - apply (R RegistrationType (Some key) ReqNameExisted).
    + intros msg [e|] H.
      * destruct (Z.eqb e CheckBadSTR); [discriminate H|]. destruct (Z.eqb e CheckBindingsDiffer); [|discriminate H].
        destruct (Z.eqb _ _); [discriminate H|]. destruct (Z.eqb _ _); discriminate H.
      * destruct (Z.eqb _ _); [discriminate H|]. destruct (Z.eqb_spec (r_error msg) ReqNameExisted); auto. discriminate H.
    + intros msg ->. reflexivity.
  - split; [intros (cc' & k & H)|intro H].
    + apply (R KeyLookupType (stored_key cc name) ReqSuccess (SFound k)
        (fun response err => match err with
          | Some e => if Z.eqb e CheckBadSTR then SMissedEpoch else SError e
          | None => if Z.eqb (r_error response) ReqSuccess then SFound k
              else if Z.eqb (r_error response) ReqNameNotFound then SNotRegistered else SNothing end)).
      * intros msg [e|] X; [destruct (Z.eqb _ _); discriminate X|].
        destruct (Z.eqb_spec (r_error msg) ReqSuccess); auto. destruct (Z.eqb _ _); discriminate X.
      * intros msg ->. reflexivity.
      * exists cc'. destruct (UnmarshalResponse _ _) as [msg|]; cbn [bind] in *; [|discriminate H].
        destruct (HandleResponse _ _ _ _ _) as [[cc1 [e|]]|]; cbn [bind] in *; auto.
        destruct (Z.eqb (r_error msg) ReqSuccess); congruence.
    + destruct H as (msg & -> & E & A). cbn [bind]. apply C31_accepts_iff in A; auto. destruct A as (cc' & ->). cbn [bind].
      exists cc', []. rewrite E. reflexivity.
  - apply (R KeyLookupType (stored_key cc name) ReqNameNotFound).
    + intros msg [e|] H; [destruct (Z.eqb _ _); discriminate H|].
      destruct (Z.eqb _ _); [discriminate H|]. destruct (Z.eqb_spec (r_error msg) ReqNameNotFound); auto. discriminate H.
    + intros msg ->. reflexivity.
Qed.
Print Assumptions C57_good_news_iff.

Lemma consistency_code {C : Crypto} a prev str e : verifySTRConsistency a prev str = Ok (Some e) -> e <> CheckBindingsDiffer.
Proof.
  unfold verifySTRConsistency. destruct (DirSTR_Serialize str); cbn [bind]; [|discriminate].
  destruct (str_sig str); cbn [bind]; [|discriminate]. destruct (negb _); [intro H; injection H as <-; discriminate|].
  destruct (deref prev); cbn [bind]; [|discriminate]. destruct (DirSTR_VerifyHashChain str _) as [[]|]; cbn [bind]; [discriminate| |discriminate].
  intro H; injection H as <-; discriminate.
Qed.
Lemma audit_code {C : Crypto} a str e : AuditDirectory a [str] = Ok (Some e) -> e <> CheckBindingsDiffer.
Proof.
  unfold AuditDirectory, CheckSTRAgainstVerified. destruct str as [str|]; cbn [deref bind]; [|discriminate].
  destruct (str_epoch str); cbn [bind]; [|discriminate]. destruct (str_epoch (au_str a)); cbn [bind]; [|discriminate].
  destruct (N.eqb _ _).
  - destruct (dir_eqb _ _); cbn [bind VerifySTRRange]; [discriminate|]. intro H; injection H as <-; discriminate.
  - destruct (N.eqb _ _); cbn [bind]; [|intro H; injection H as <-; discriminate].
    destruct (verifySTRConsistency a _ str) as [[x|]|] eqn:V; cbn [bind VerifySTRRange]; try discriminate.
    intro H; injection H as <-. eapply consistency_code; eauto.
Qed.
(** The user always gets a message. *)
Theorem C57_never_silent : forall (C : Crypto) cc res name key, cc_useTBs cc = true ->
  (forall cc', register cc res name key <> Ok (cc', SNothing)) /\
  (forall cc', keyLookup cc res name <> Ok (cc', SNothing)).
Proof.
  intros C cc [j|] name key U; [|split; intros cc' H; discriminate H]. unfold register, keyLookup. split; intros cc' H.
  - destruct (UnmarshalResponse _ j) as [msg|]; cbn [bind] in H; [|discriminate H].
    destruct (HandleResponse cc _ msg name (Some key)) as [[cc1 err]|] eqn:E; cbn [bind] in H; [|discriminate H].
    injection H as _ H. destruct err as [e|].
    + destruct (Z.eqb e CheckBadSTR); [discriminate H|]. destruct (Z.eqb_spec e CheckBindingsDiffer) as [->|]; [|discriminate H].
      assert (X : r_error msg = ReqSuccess \/ r_error msg = ReqNameExisted).
      { unfold HandleResponse in E. destruct (Validate msg) as [[e0|]|] eqn:V; cbn [bind] in E; [| |discriminate E].
        { injection E as _ ->. unfold Validate in V. destruct (is_error (r_error msg)) eqn:IE.
          - injection V as V. rewrite V in IE. discriminate IE.
          - destruct (r_df msg) as [[[df|]|[[|? ?]|]]|]; try discriminate V.
            destruct (dp_str df); [discriminate V|]. destruct (dp_ap df); discriminate V. }
        change (Z.eqb RegistrationType RegistrationType || Z.eqb RegistrationType KeyLookupType || Z.eqb RegistrationType KeyLookupInEpochType || Z.eqb RegistrationType MonitoringType) with true in E.
        cbn iota in E. destruct (r_df msg) as [[[df|]|l]|]; try discriminate E.
        destruct (updateSTR cc RegistrationType df) as [[cc2 [e0|]]|] eqn:US; cbn [bind] in E; [| |discriminate E].
        { exfalso. injection E as _ ->. unfold updateSTR in US.
          change (Z.eqb RegistrationType RegistrationType || Z.eqb RegistrationType KeyLookupType) with true in US. cbn iota in US.
          destruct (str0 df) as [str|]; cbn [bind] in US; [|discriminate US].
          destruct (AuditDirectory (cc_aud cc) [str]) as [[e0|]|] eqn:AD; cbn [bind] in US; [| |discriminate US].
          - injection US as _ ->. eapply audit_code; [exact AD|reflexivity].
          - destruct str; discriminate US. }
        unfold checkConsistency in E. change (Z.eqb RegistrationType RegistrationType) with true in E. cbn iota in E. unfold verifyRegistration in E.
        destruct (ap0 df) as [ap|]; cbn [bind] in E; [|discriminate E]. destruct (str0 df) as [str|]; cbn [bind] in E; [|discriminate E].
        destruct (proofType ap) as [pt|]; cbn [bind] in E; [|discriminate E].
        destruct (Z.eqb_spec (r_error msg) ReqNameExisted); auto. destruct (Z.eqb_spec (r_error msg) ReqSuccess); auto. discriminate E. }
      destruct X as [X|X]; rewrite X in H; discriminate H.
    + apply accepted_acceptable in E; auto. apply accepted_code in E.
      destruct E as [(_ & [E|E])|(X & _)]; [rewrite E in H; discriminate H|rewrite E in H; discriminate H|discriminate X].
  - destruct (UnmarshalResponse _ j) as [msg|]; cbn [bind] in H; [|discriminate H].
    destruct (HandleResponse cc _ msg name _) as [[cc1 err]|] eqn:E; cbn [bind] in H; [|discriminate H].
    injection H as _ H. destruct err as [e|]; [destruct (Z.eqb e CheckBadSTR); discriminate H|].
    apply accepted_acceptable in E; auto. apply accepted_code in E.
    destruct E as [(X & _)|(_ & [E|E])]; [discriminate X|rewrite E in H; discriminate H|rewrite E in H; discriminate H].
Qed.
Print Assumptions C57_never_silent.

(** But the key it prints is never the one the server showed: it is always
    empty. *)
Theorem C57_key_never_shown_refuted : forall (C : Crypto) cc res name key cc',
  (forall k, keyLookup cc res name = Ok (cc', SFound k) -> k = []) /\
  (forall got wanted, register cc res name key = Ok (cc', SOtherKey got wanted) -> got = []).
Proof.
  intros C cc [j|] name key cc'; [|split; intros; discriminate]. unfold register, keyLookup. split.
  - intros k H. destruct (UnmarshalResponse _ j) as [msg|]; cbn [bind] in H; [|discriminate H].
    destruct (HandleResponse cc _ msg name _) as [[cc1 [e|]]|]; cbn [bind] in H; [| |discriminate H]; injection H as _ H.
    + destruct (Z.eqb e CheckBadSTR); discriminate H.
    + destruct (Z.eqb _ _); [injection H as <-; reflexivity|]. destruct (Z.eqb _ _); discriminate H.
  - intros got wanted H. destruct (UnmarshalResponse _ j) as [msg|]; cbn [bind] in H; [|discriminate H].
    destruct (HandleResponse cc _ msg name _) as [[cc1 [e|]]|]; cbn [bind] in H; [| |discriminate H]; injection H as _ H.
    + destruct (Z.eqb e CheckBadSTR); [discriminate H|]. destruct (Z.eqb e _); [|discriminate H].
      destruct (Z.eqb _ _); [discriminate H|]. destruct (Z.eqb _ _); [injection H as <- _; reflexivity|discriminate H].
    + destruct (Z.eqb _ _); [discriminate H|]. destruct (Z.eqb _ _); discriminate H.
Qed.
Print Assumptions C57_key_never_shown_refuted.

(** ** In front of an honest server *)

(** The user's commands (with the entropy the server draws for a registration)
    and what else happens at the server. *)
Inductive command :=
| KOther (op : srv_op)
| KRegister (r name key : bytes)
| KLookup (name : bytes).

Section Run.
  Context {C : Crypto}.
  (** Request and response travel as JSON values between the client and the
      server's addresses [reg_addr] and [addr]. *)
  Definition command_step (p : permtable) (reg_addr addr : nat) (d : Directory) (cc : Checks) (c : command)
    : result (Directory * Checks * list said) :=
    match c with
    | KOther op => do (d', _) <- srv_sem p op d; Ok (d', cc, [])
    | KRegister r name key =>
        do (d', resp) <- srv_sem p (OMsg reg_addr (Some (CreateRegistrationMsg name key)) (Some r)) d;
        do (cc', s) <- register cc (option_map (fun x => Some (MarshalResponse x)) resp) name key;
        Ok (d', cc', [s])
    | KLookup name =>
        do (d', resp) <- srv_sem p (OMsg addr (Some (CreateKeyLookupMsg name)) None) d;
        do (cc', s) <- keyLookup cc (option_map (fun x => Some (MarshalResponse x)) resp) name;
        Ok (d', cc', [s])
    end.
  Fixpoint command_run p reg_addr addr (d : Directory) (cc : Checks) (l : list command) : result (Directory * Checks * list said) :=
    match l with
    | [] => Ok (d, cc, [])
    | c :: l' =>
        do (x, out) <- command_step p reg_addr addr d cc c;
        do (y, outs) <- command_run p reg_addr addr (fst x) (snd x) l';
        Ok (y, out ++ outs)
    end.
End Run.

(** What the user should read: [h] is what happened at the directory before. *)
Definition expected1 (h : list dir_op) (c : command) : list said :=
  match c with
  | KOther _ => []
  | KRegister _ name key =>
      [match reg h name with
       | None => SRegistered name
       | Some k => if beq k key then SAlreadyRegistered else SKeyChange
       end]
  | KLookup name => [match reg h name with None => SNotRegistered | Some _ => SFound [] end]
  end.
Definition calls1 (p : permtable) (c : command) : list dir_op :=
  match c with
  | KOther op => dir_calls p op
  | KRegister r name key => [DRegister (Some r) name key]
  | KLookup _ => []
  end.
Definition calls (p : permtable) (l : list command) : list dir_op := flat_map (calls1 p) l.
Fixpoint expected (p : permtable) (h : list dir_op) (l : list command) : list said :=
  match l with
  | [] => []
  | c :: l' => expected1 h c ++ expected p (h ++ calls1 p c) l'
  end.
(** Names are non-empty UTF-8 text, keys non-empty. *)
Definition wf_command (c : command) : Prop :=
  match c with
  | KOther _ => True
  | KRegister _ name key => utf8 name /\ name <> [] /\ key <> []
  | KLookup name => utf8 name /\ name <> []
  end.
Definition looked_up (c : command) : list bytes := match c with KLookup name => [name] | _ => [] end.
(** At most one epoch passes between two commands. *)
Fixpoint no_missed_epoch (lag : nat) (l : list command) : Prop :=
  match l with
  | [] => True
  | KOther OTick :: l' => lag = 0 /\ no_missed_epoch 1 l'
  | KOther _ :: l' => no_missed_epoch lag l'
  | _ :: l' => no_missed_epoch 0 l'
  end.

Section HonestRun.
  Context {C : Crypto} (OK : CryptoOk C).
  Variables (dl0 : N) (vk sk : bytes) (size : nat) (r1 r2 : option bytes).
  Variables (p : permtable) (reg_addr addr : nat).
  Hypothesis PR : p reg_addr RegistrationType = true.
  Hypothesis PL : p addr KeyLookupType = true.
  Notation jinv := (joint_inv dl0 vk sk size r1 r2).

  Definition no_keys (cc : Checks) : Prop := forall n, stored_key cc n = None.

  Lemma handle_no_keys cc t msg name key cc' err : HandleResponse cc t msg name key = Ok (cc', err) -> no_keys cc -> no_keys cc'.
  Proof.
    intros H N n. destruct (handle_state _ _ _ _ _ _ _ H) as (_ & _ & D & _).
    destruct D as [->|(ap & s & _ & _ & _ & D)]; auto. unfold stored_key. specialize (N n). unfold stored_key in N.
    destruct err as [e|].
    - destruct D as (_ & ->). exact N.
    - destruct D as (_ & -> & _). destruct (beq_spec n name) as [->|NE].
      + rewrite map_get_set_same by apply beq_eq. reflexivity.
      + rewrite map_get_set_other by (auto using beq_eq). exact N.
  Qed.

  Lemma register_arrives d r name key : utf8 name ->
    srv_sem p (OMsg reg_addr (Some (CreateRegistrationMsg name key)) r) d = do (d', x) <- Register d r name key; Ok (d', Some x).
  Proof.
    intro U. cbn [srv_sem]. unfold accept. cbn [obind]. rewrite registration_msg, utf8_coerce_id by auto.
    unfold checkRequestType. cbn [q_type]. rewrite PR. reflexivity.
  Qed.
  Lemma lookup_arrives d r name : utf8 name ->
    srv_sem p (OMsg addr (Some (CreateKeyLookupMsg name)) r) d = do x <- KeyLookup d name; Ok (d, Some x).
  Proof.
    intro U. cbn [srv_sem]. unfold accept. cbn [obind]. rewrite keylookup_msg, utf8_coerce_id by auto.
    unfold checkRequestType. cbn [q_type]. rewrite PL. unfold HandleRequests. cbn [q_type q_body].
    change (Z.eqb KeyLookupType RegistrationType) with false. change (Z.eqb KeyLookupType KeyLookupType) with true. cbn iota.
    destruct (KeyLookup d name); reflexivity.
  Qed.

  Lemma command_step_inv h d cc lag c : jinv h d cc lag -> no_keys cc ->
    few (h ++ calls1 p c) -> vrf_good vk (looked_up c ++ names_of (h ++ calls1 p c)) -> deadlines_ok dl0 h ->
    wf_command c -> no_missed_epoch lag [c] ->
    exists d' cc', command_step p reg_addr addr d cc c = Ok (d', cc', expected1 h c) /\ no_keys cc' /\
      jinv (h ++ calls1 p c) d' cc' (match c with KOther OTick => 1 | KOther _ => lag | _ => 0 end).
  Proof.
    intros JI NK F SP DL W PM. pose proof JI as [B _ _ _ _].
    assert (F0 : few h) by (unfold few in *; rewrite dupdates_app in F; lia).
    destruct c as [op|r name key|name]; cbn [command_step calls1 expected1 looked_up wf_command] in *.
    - destruct (srv_sem p op d) as [[d' resp]|] eqn:S.
      2:{ exfalso. assert (X : exists d' resp, srv_sem p op d = Ok (d', resp)); [|destruct X as (? & ? & X); congruence].
          destruct op as [a msg rr| |[dl|]]; cbn [srv_sem]; eauto.
          cbn [srv_sem dir_calls] in *. destruct (accept p a msg) as [x|q]; eauto. unfold HandleRequests in *.
          pose proof (C25_no_crash C OK dl0 vk sk size r1 r2 h d B F0) as NC.
          destruct (Z.eqb (q_type q) RegistrationType).
          { destruct (q_body q) as [n k u v| | | | | |]; cbn [bind]; eauto. destruct (proj1 (NC rr n k 0%N 0%N)) as (d' & x & ->). cbn [bind]. eauto. }
          destruct (Z.eqb (q_type q) KeyLookupType).
          { destruct (q_body q) as [|n| | | | |]; cbn [bind]; eauto. destruct (proj1 (proj2 (NC rr n n 0%N 0%N))) as (x & ->). cbn [bind]. eauto. }
          destruct (Z.eqb (q_type q) KeyLookupInEpochType).
          { destruct (q_body q) as [| |n e| | | |]; cbn [bind]; eauto. destruct (proj1 (proj2 (proj2 (NC rr n n e 0%N)))) as (x & ->). cbn [bind]. eauto. }
          destruct (Z.eqb (q_type q) MonitoringType).
          { destruct (q_body q) as [| | |n e e'| | |]; cbn [bind]; eauto. destruct (proj2 (proj2 (proj2 (NC rr n n e e')))) as (x & ->). cbn [bind]. eauto. }
          cbn [bind]. eauto. }
      cbn [bind]. exists d', cc. split; auto. split; auto. pose proof (sem_calls _ _ _ _ _ S) as R.
      destruct (dir_calls p op) as [|o l] eqn:DC.
      { cbn [dir_run] in R. injection R as <-. rewrite app_nil_r. destruct op as [a msg rr| |[dl|]]; try exact JI. discriminate DC. }
      assert (l = []) as ->.
      { destruct op as [a msg rr| |[dl|]]; cbn [dir_calls] in DC; try congruence.
        destruct (accept p a msg) as [x|q]; [congruence|]. destruct (Z.eqb _ _); [|congruence].
        destruct (q_body q) as [n k u v| | | | | |]; congruence. }
      destruct (joint_step_inv OK dl0 vk sk size r1 r2 h d cc lag (JOther o) JI) as (d1 & cc1 & E & J); auto; try exact I.
      { cbn [prompt]. destruct o; auto. destruct op as [a msg rr| |[dl|]]; cbn [dir_calls] in DC; try discriminate DC; try exact PM.
        destruct (accept p a msg) as [x|q]; [discriminate DC|]. destruct (Z.eqb _ _); [|discriminate DC]. destruct (q_body q); discriminate DC. }
      cbn [joint_step dir_run bind] in E, R. destruct (dir_step d o) as [d2|]; cbn [bind] in E, R; [|discriminate R].
      injection R as ->. injection E as <- <-. cbn [is_contact server_op] in J.
      destruct op as [a msg rr| |[dl|]]; cbn [dir_calls] in DC; try (injection DC as <-; exact J); try discriminate DC.
      destruct (accept p a msg) as [x|q]; [discriminate DC|]. destruct (Z.eqb _ _); [|discriminate DC].
      destruct (q_body q) as [n k u v| | | | | |]; try discriminate DC. injection DC as <-. exact J.
    - destruct W as (U & NN & NY). rewrite register_arrives by auto.
      destruct (joint_step_inv OK dl0 vk sk size r1 r2 h d cc lag (JRegister r name key) JI) as (d1 & cc1 & E & J); auto; try exact I.
      { split; auto. }
      cbn [joint_step outcome is_contact server_op] in E, J.
      destruct (Register d (Some r) name key) as [[d2 resp]|] eqn:R; cbn [bind] in E |- *; [|discriminate E].
      destruct (HandleResponse cc RegistrationType resp name (Some key)) as [[cc2 err]|] eqn:HR; cbn [bind] in E; [|discriminate E].
      cbv beta in E. apply (f_equal (fun x => match x with Ok y => Some y | Panic => None end)) in E. injection E as -> -> OUT.
      assert (SP1 : vrf_good vk (name :: names_of h)).
      { apply (vrf_good_incl vk _ _) with (2 := SP). intros a Ia. cbn [app]. rewrite names_app, in_app_iff. cbn [names_of flat_map op_names app In] in *. tauto. }
      pose proof (C43_directory_answers_arrive C OK dl0 vk sk size r1 r2 h d B F0 DL (Some r) (WRegistration name key false false) d1 resp U R) as AR.
      cbn [type_of] in AR. unfold register. cbn [option_map]. rewrite AR. cbn [bind]. rewrite HR. cbn [bind].
      exists d1, cc1. split; [|split; auto; eapply handle_no_keys; eauto].
      destruct (C24_register C OK dl0 vk sk size r1 r2 h d (Some r) name key B F0 SP1) as (d' & resp' & E' & X).
      rewrite R in E'. injection E' as <- <-.
      assert (ZN : is_nil name || is_nil key = false) by (destruct name, key; [congruence|congruence|congruence|reflexivity]). rewrite ZN in X.
      destruct X as (_ & X1 & X2 & X3).
      assert (CODE : r_error resp = match reg h name with None => ReqSuccess | Some _ => ReqNameExisted end).
      { destruct (reg h name) as [k|] eqn:RG.
        - destruct (visible h name) as [k'|] eqn:V.
          + destruct (X3 k' eq_refl) as (_ & ap & -> & _). reflexivity.
          + destruct (X2 k eq_refl eq_refl) as (_ & ap & tb & -> & _). reflexivity.
        - destruct (X1 eq_refl ltac:(discriminate)) as (ap & tb & -> & _). reflexivity. }
      f_equal. f_equal. f_equal. rewrite OUT, CODE. destruct (reg h name) as [k|]; [|reflexivity].
      destruct (beq k key); reflexivity.
    - destruct W as (U & NN). rewrite lookup_arrives by auto. rewrite app_nil_r in *.
      destruct (joint_step_inv OK dl0 vk sk size r1 r2 h d cc lag (JLookup name None) JI) as (d1 & cc1 & E & J); auto;
        try (cbn [server_op]; rewrite app_nil_r; auto); try exact I.
      cbn [joint_step outcome is_contact server_op] in E, J. rewrite app_nil_r in J.
      destruct (KeyLookup d name) as [resp|] eqn:R; cbn [bind] in E |- *; [|discriminate E].
      destruct (HandleResponse cc KeyLookupType resp name None) as [[cc2 err]|] eqn:HR; cbn [bind] in E; [|discriminate E].
      injection E as <- <- OUT.
      pose proof (C43_directory_answers_arrive C OK dl0 vk sk size r1 r2 h d B F0 DL None (WKeyLookup name) d resp U) as AR.
      cbn [type_of directory_answer] in AR. rewrite R in AR. specialize (AR eq_refl).
      unfold keyLookup. cbn [option_map]. rewrite AR. cbn [bind]. rewrite (NK name), HR. cbn [bind].
      exists d, cc2. split; [|split; auto; eapply handle_no_keys; eauto]. rewrite OUT.
      assert (CODE : r_error resp = match reg h name with None => ReqNameNotFound | Some _ => ReqSuccess end).
      { destruct (C24_key_lookup C OK dl0 vk sk size r1 r2 h d name B F0) as (ap & _ & _ & X); auto.
        destruct (visible h name) as [k|] eqn:V.
        - rewrite (visible_reg _ _ _ V). rewrite R in X. injection X as ->. reflexivity.
        - destruct (reg h name) as [k|].
          + destruct X as (tb & X & _). rewrite R in X. injection X as ->. reflexivity.
          + rewrite R in X. injection X as ->. reflexivity. }
      rewrite CODE. destruct (reg h name); reflexivity.
  Qed.

  Lemma command_run_inv : forall l h d cc lag, jinv h d cc lag -> no_keys cc ->
    few (h ++ calls p l) -> vrf_good vk (flat_map looked_up l ++ names_of (h ++ calls p l)) -> deadlines_ok dl0 (h ++ calls p l) ->
    Forall wf_command l -> no_missed_epoch lag l ->
    exists d' cc', command_run p reg_addr addr d cc l = Ok (d', cc', expected p h l).
  Proof.
    induction l as [|c l IH]; intros h d cc lag JI NK F SP DL W PM; [exists d, cc; reflexivity|].
    cbn [calls flat_map] in *. fold (calls p l) in *. rewrite app_assoc in *. inversion W as [|? ? W1 W2]; subst.
    destruct (command_step_inv h d cc lag c JI NK) as (d1 & cc1 & E & N1 & J1); auto.
    { unfold few in *. rewrite dupdates_app in F. lia. }
    { apply (vrf_good_incl vk _ _) with (2 := SP). intros a Ia. rewrite !names_app in *. rewrite !in_app_iff in *. tauto. }
    { destruct DL as (D1 & D2). split; auto. intros t I. apply D2. rewrite !in_app_iff. tauto. }
    { destruct c as [[a m r| |dl]|r n k|n]; cbn [no_missed_epoch] in *; tauto. }
    destruct (IH (h ++ calls1 p c) d1 cc1 _ J1 N1) as (d' & cc' & E'); auto.
    { apply (vrf_good_incl vk _ _) with (2 := SP). intros a Ia. rewrite !in_app_iff in *. tauto. }
    { destruct c as [[a m r| |dl]|r n k|n]; cbn [no_missed_epoch] in *; tauto. }
    exists d', cc'. cbn [command_run expected]. rewrite E. cbn [bind fst snd]. rewrite E'. reflexivity.
  Qed.
End HonestRun.

(** With an honest server, whatever other users do there, the user reads
    exactly what happened to the names: registered, already registered (with
    this key, or with another), found, not registered -- as long as no epoch
    is missed. *)
Theorem C57_honest_server : forall (C : Crypto), CryptoOk C ->
  forall dl0 vk sk size r1 r2 d0 cc0 p reg_addr addr cmds,
  Directory_New dl0 vk sk size true r1 r2 = Ok d0 -> Client_New (LatestSTR d0) true (sign_pub sk) = Ok cc0 ->
  p reg_addr RegistrationType = true -> p addr KeyLookupType = true ->
  no_missed_epoch 0 cmds -> Forall wf_command cmds -> few (calls p cmds) -> deadlines_ok dl0 (calls p cmds) ->
  vrf_good vk (flat_map looked_up cmds ++ names_of (calls p cmds)) ->
  exists d cc, command_run p reg_addr addr d0 cc0 cmds = Ok (d, cc, expected p [] cmds).
Proof.
  intros C OK dl0 vk sk size r1 r2 d0 cc0 p ra a cmds N0 CN PR PL PM W F DL SP.
  apply (command_run_inv OK dl0 vk sk size r1 r2 p ra a PR PL cmds [] d0 cc0 0); auto.
  - unfold Client_New in CN. injection CN as <-. constructor; cbn; auto.
    + exists d0. auto.
    + intros n tb X. discriminate X.
  - unfold Client_New in CN. injection CN as <-. intro n. reflexivity.
Qed.
Print Assumptions C57_honest_server.

Definition commands_ex : list command :=
  [KLookup [x61]; KRegister [x01] [x61] [x31]; KRegister [x02] [x61] [x31]; KRegister [x03] [x61] [x32]; KLookup [x61];
   KOther OTick; KOther (OMsg 7 None None); KLookup [x61]; KOther (OReload (Some 9%N)); KOther OTick; KRegister [x04] [x62] [x33]].
Definition perms_ex : permtable := permissions [mkAddress 0 true; mkAddress 1 false].
Example C57_nonvacuous :
  perms_ex 0 RegistrationType = true /\ perms_ex 1 KeyLookupType = true /\
  no_missed_epoch 0 commands_ex /\ Forall wf_command commands_ex /\ few (calls perms_ex commands_ex) /\
  deadlines_ok 5 (calls perms_ex commands_ex) /\
  @vrf_good ToyCrypto [x11] (flat_map looked_up commands_ex ++ names_of (calls perms_ex commands_ex)) /\
  expected perms_ex [] commands_ex =
    [SNotRegistered; SRegistered [x61]; SAlreadyRegistered; SKeyChange; SFound []; SFound []; SRegistered [x62]].
Proof.
  split; [reflexivity|]. split; [reflexivity|]. split; [cbn; auto|]. split.
  { repeat (apply Forall_cons || apply Forall_nil); try exact I; repeat split; try discriminate; apply u_1; try reflexivity; constructor. }
  split; [cbv; reflexivity|]. split.
  { split; [reflexivity|]. intros t H. cbn in H. repeat (destruct H as [H|H]; [try discriminate H; injection H as <-; reflexivity|]). destruct H. }
  split; [|vm_compute; reflexivity].
  split; [|intros k _; apply ToyCrypto_vrf].
  set (L := flat_map looked_up commands_ex ++ names_of (calls perms_ex commands_ex)).
  assert (A : forallb (fun a => forallb (fun b => if list_eq_dec Bool.bool_dec (firstn 248 (ToBits (@idx_of ToyCrypto [x11] a)))
      (firstn 248 (ToBits (@idx_of ToyCrypto [x11] b))) then beq a b else true) L) L = true) by (vm_compute; reflexivity).
  intros a b Ia Ib E. rewrite forallb_forall in A. specialize (A a Ia). cbv beta in A. rewrite forallb_forall in A. specialize (A b Ib).
  cbv beta in A. destruct (list_eq_dec _ _ _); [|contradiction]. apply beq_eq. exact A.
Qed.
