(** C96: an account holder who asks the proxy gets an answer that can be read, and
    the key can then be looked up, with no condition on the size of any answer
    (Prop_BotDeploy.v, Prop_Fit.v). *)
From Coq Require Import List NArith ZArith Lia Bool Arith.
From Coq Require Import String.
From Verif Require Import Base Utils Crypto Tree TreeSpec STR PAD PADSpec PADMain Protocol Directory DirSpec DirFacts DirMain Prop_Directory
  Path Json JsonText Wire Text TextFacts Conc Server ServerFacts ServerWire Prop_Server Prop_Text Bot Prop_Bot Deploy DeployFacts Prop_Deploy BotDeploy Prop_BotDeploy Prop_Fit.
Import ListNotations.
Local Open Scope list_scope.
Local Open Scope nat_scope.
Notation length := List.length.

(** ** What may happen *)
(** The addresses that accept registrations are left to the proxy.
    No line of its own in /repo: a condition on the histories quantified over. *)
Definition left_to_proxy (p : permtable) (events : list event) : Prop :=
  forall addr text r, In (Message addr text r) events -> p addr RegistrationType = false.
(** Deadlines are 64-bit numbers, as the type of the configuration's field says
    (application/server/config.go:26-30, [EpochDeadline]). *)
Definition deadlines_fit (dl : N) (events : list event) : Prop :=
  uint64 dl /\ forall t, In (ReloadPolicies (Some t)) events -> uint64 t.
(** No account asks for a key of more than [K] bytes.
    No line of its own in /repo: a condition on the histories quantified over. *)
Definition asked_up_to (K : nat) (events : list event) : Prop :=
  forall sender text r n k, In (DirectMessage sender text r) events -> asks sender text n k -> length k <= K.
(** The direct message with which the account holder asks for [k] to be registered:
    application/client/encoding.go:10-16 and the prefix of application/bots/bot.go:15. *)
Definition own_request (sender k : bytes) : bytes := messagePrefix ++ json_text (CreateRegistrationMsg (name1 sender) k).

Lemma name1_utf8 s : ascii s -> utf8 (name1 s).
Proof. intro A. apply ascii_utf8, ascii_account, A. Qed.
Lemma name1_length s : length (name1 s) = length s + 8.
Proof. unfold name1. rewrite app_length, map_length. reflexivity. Qed.
Lemma own_parsed sender k : ascii sender ->
  obind (json_parse (json_text (CreateRegistrationMsg (name1 sender) k))) UnmarshalRequest =
    Some (mkReq RegistrationType (WRegistration (name1 sender) k false false)).
Proof.
  intro A. rewrite json_round_trip by (apply request_utf8; discriminate). cbn [obind].
  rewrite registration_msg, (utf8_coerce_id _ (name1_utf8 _ A)). reflexivity.
Qed.
Lemma own_asks sender k : ascii sender -> asks sender (own_request sender k) (name1 sender) k.
Proof.
  intro A. unfold asks, own_request. exists (json_text (CreateRegistrationMsg (name1 sender) k)). eexists. exists false, false.
  split; [reflexivity|]. split; [apply own_parsed, A|]. split; [reflexivity|]. unfold names_account. apply folds_refl.
Qed.

(** ** Nothing in a deployment's life crashes it *)
Lemma sem_total (C : Crypto) : CryptoOk C -> forall dl0 vk sk size r1 r2 ops d, dir_built dl0 vk sk size r1 r2 ops d -> few ops ->
  forall p op, exists d' resp, srv_sem p op d = Ok (d', resp).
Proof.
  intros OK dl0 vk sk size r1 r2 ops d B F p op.
  destruct op as [addr msg r| |[dl|]]; cbn [srv_sem]; [|eauto|eauto|eauto].
  destruct (accept p addr msg) as [x|q]; [eauto|]. unfold HandleRequests.
  assert (T := C25_no_crash C OK _ _ _ _ _ _ _ _ B F).
  destruct (Z.eqb (q_type q) RegistrationType).
  { destruct (q_body q); cbn [bind]; eauto.
    destruct (T r name key 0%N 0%N) as ((d' & x & E) & _). rewrite E. cbn [bind]. eauto. }
  destruct (Z.eqb (q_type q) KeyLookupType).
  { destruct (q_body q); cbn [bind]; eauto.
    destruct (T r name name 0%N 0%N) as (_ & (x & E) & _). rewrite E. cbn [bind]. eauto. }
  destruct (Z.eqb (q_type q) KeyLookupInEpochType).
  { destruct (q_body q); cbn [bind]; eauto.
    destruct (T r name name epoch 0%N) as (_ & _ & (x & E) & _). rewrite E. cbn [bind]. eauto. }
  destruct (Z.eqb (q_type q) MonitoringType).
  { destruct (q_body q); cbn [bind]; eauto.
    destruct (T r name name startEpoch endEpoch) as (_ & _ & _ & (x & E)). rewrite E. cbn [bind]. eauto. }
  cbn [bind]. eauto.
Qed.
Lemma serve_total (C : Crypto) : CryptoOk C -> forall dl0 vk sk size r1 r2 ops d, dir_built dl0 vk sk size r1 r2 ops d -> few ops ->
  forall p a text r, exists d' ans, serve p a text r d = Ok (d', ans).
Proof.
  intros OK dl0 vk sk size r1 r2 ops d B F p a text r. unfold serve.
  destruct (sem_total C OK _ _ _ _ _ _ _ _ B F p (OMsg a (received text) r)) as (d' & x & E). rewrite E. cbn [bind]. eauto.
Qed.

Section History.
  Context {C : Crypto} (OK : CryptoOk C).
  Variables (dl0 : N) (vk sk : bytes) (size : nat) (r1 r2 : option bytes).
  Variables (p : permtable) (socks : sockets) (b : TwitterBot).

  (** One event: what it does to the directory. *)
  Definition does (e : event) (ops : list dir_op) : Prop :=
    dupdates ops = ticks_of [e] /\
    (forall r n k, In (DRegister r n k) ops -> exists sender text, e = DirectMessage sender text r /\ asks sender text n k) /\
    (forall t, In (DSetPolicies t) ops -> e = ReloadPolicies (Some t)).
  Lemma does_nothing e : ticks_of [e] = 0 -> does e [].
  Proof. intro T. split; [symmetry; exact T|]. split; [intros ? ? ? []|intros ? []]. Qed.
  Lemma step_does ops d e : dir_built dl0 vk sk size r1 r2 ops d -> few ops -> left_to_proxy p [e] ->
    exists d' ops', happen p socks b d e = Ok d' /\ dir_run d ops' = Ok d' /\ does e ops'.
  Proof.
    intros B F PM. destruct e as [addr text r|sender text r| |dl]; cbn [happen].
    - destruct (serve_total C OK _ _ _ _ _ _ _ _ B F p addr text r) as (d' & ans & S). rewrite S. cbn [bind].
      exists d', []. split; [reflexivity|]. apply serve_run in S.
      rewrite (calls_silent p addr _ r) in S by (eapply PM; left; reflexivity). split; [exact S|]. apply does_nothing. reflexivity.
    - assert (NO : exists d' ops', (do (d'0, _) <- Ok (d, @nil (bytes * bytes)); Ok d'0) = Ok d' /\ dir_run d ops' = Ok d' /\ does (DirectMessage sender text r) ops').
      { exists d, []. split; [reflexivity|]. split; [reflexivity|]. apply does_nothing. reflexivity. }
      unfold direct_message, handle_dm.
      destruct (EqualFold sender (tb_handle b)); [exact NO|].
      destruct (strip_prefix messagePrefix text) as [msg|] eqn:SP; [|exact NO].
      apply strip_text in SP.
      match goal with |- context [HandleRegistration ?f sender msg] =>
        destruct (C45_forwards_exactly_own_names f sender msg) as [(q & n & k & u & v & Q & Ty & BO & NA & EQ)|[_ EQ]] end;
        rewrite EQ; clear EQ.
      2:{ exists d, []. split; [reflexivity|]. split; [reflexivity|]. apply does_nothing. reflexivity. }
      destruct (reaches b socks) as [a|].
      2:{ exists d, []. split; [reflexivity|]. split; [reflexivity|]. apply does_nothing. reflexivity. }
      destruct (serve_total C OK _ _ _ _ _ _ _ _ B F p a msg r) as (d' & ans & S). rewrite S. cbn [bind].
      apply serve_run in S. eexists d', _. split; [reflexivity|]. split; [exact S|].
      split; [rewrite calls_no_update; reflexivity|].
      cbn [dir_calls]. unfold accept.
      destruct (obind (received msg) UnmarshalRequest) as [q'|] eqn:Q'; [|split; [intros ? ? ? []|intros ? []]].
      assert (q' = q) as -> by (eapply received_same; eauto).
      destruct (checkRequestType p a (q_type q)); [|split; [intros ? ? ? []|intros ? []]]. rewrite Ty.
      change (Z.eqb RegistrationType RegistrationType) with true. cbn iota. rewrite BO.
      split; [|intros t [X|[]]; discriminate X].
      intros r' n' k' [I|[]]. injection I as <- <- <-. exists sender, text. split; [reflexivity|].
      exists msg, q, u, v. auto.
    - cbn [srv_sem bind]. eexists _, [DUpdate]. split; [reflexivity|]. split; [reflexivity|]. split; [reflexivity|].
      split; [intros ? ? ? [X|[]]; discriminate X|intros ? [X|[]]; discriminate X].
    - destruct dl as [dl|]; cbn [srv_sem bind].
      + eexists _, [DSetPolicies dl]. split; [reflexivity|]. split; [reflexivity|]. split; [reflexivity|].
        split; [intros ? ? ? [X|[]]; discriminate X|intros t [X|[]]; injection X as ->; reflexivity].
      + exists d, []. split; [reflexivity|]. split; [reflexivity|]. apply does_nothing. reflexivity.
  Qed.

  (** Any number of events. *)
  Definition did (l : list event) (ops : list dir_op) : Prop :=
    dupdates ops = ticks_of l /\
    (forall r n k, In (DRegister r n k) ops -> exists sender text, In (DirectMessage sender text r) l /\ asks sender text n k) /\
    (forall t, In (DSetPolicies t) ops -> In (ReloadPolicies (Some t)) l).
  Lemma run_built ops d ops' d' : dir_built dl0 vk sk size r1 r2 ops d -> dir_run d ops' = Ok d' -> dir_built dl0 vk sk size r1 r2 (ops ++ ops') d'.
  Proof. intros (d0 & N & R) R'. exists d0. split; [exact N|]. rewrite dir_run_app, R. exact R'. Qed.
  Lemma history : forall l ops d, dir_built dl0 vk sk size r1 r2 ops d ->
    (N.of_nat (dupdates ops + ticks_of l) < 2 ^ 64 - 1)%N -> left_to_proxy p l ->
    exists d' ops', happens p socks b d l = Ok d' /\ dir_run d ops' = Ok d' /\ did l ops'.
  Proof.
    induction l as [|e l IH]; intros ops d B T PM.
    - exists d, []. split; [reflexivity|]. split; [reflexivity|]. split; [reflexivity|]. split; [intros ? ? ? []|intros ? []].
    - assert (TE : ticks_of (e :: l) = ticks_of [e] + ticks_of l) by (destruct e; reflexivity).
      assert (F : few ops) by (unfold few; rewrite TE in T; lia).
      destruct (step_does ops d e B F) as (d1 & o1 & H1 & R1 & D1 & D2 & D3).
      { intros addr text r [->|[]]. eapply PM. left. reflexivity. }
      destruct (IH (ops ++ o1) d1) as (d' & o2 & H2 & R2 & E1 & E2 & E3).
      { eapply run_built; [exact B|exact R1]. }
      { rewrite dupdates_app, D1. rewrite TE in T. rewrite <- Nat.add_assoc. exact T. }
      { intros addr text r I. eapply PM. right. exact I. }
      exists d', (o1 ++ o2). cbn [happens]. rewrite H1. cbn [bind]. split; [exact H2|].
      split; [rewrite dir_run_app, R1; exact R2|]. split; [rewrite dupdates_app, TE; lia|]. split.
      + intros r n k I. apply in_app_or in I as [I|I].
        * destruct (D2 _ _ _ I) as (sender & text & -> & A). exists sender, text. split; [left; reflexivity|exact A].
        * destruct (E2 _ _ _ I) as (sender & text & J & A). exists sender, text. split; [right; exact J|exact A].
      + intros t I. apply in_app_or in I as [I|I]; [left; exact (D3 _ I)|right; exact (E3 _ I)].
  Qed.
  Lemma did_names l ops : did l ops -> forall n, In n (names_of ops) -> In n (asked_names l).
  Proof.
    intros (_ & D & _) n I. unfold names_of in I. apply in_flat_map in I as (op & I & X).
    destruct op as [r n' k| |]; cbn [op_names] in X; try (destruct X; fail). destruct X as [<-|[]].
    destruct (D _ _ _ I) as (sender & text & J & A). apply in_flat_map. exists (DirectMessage sender text r).
    split; [exact J|]. eapply asks_named; exact A.
  Qed.
  Lemma did_keys K l ops : did l ops -> asked_up_to K l -> keys_up_to K ops.
  Proof. intros (_ & D & _) A r n k I. destruct (D _ _ _ I) as (sender & text & J & Q). exact (A _ _ _ _ _ J Q). Qed.
  Lemma did_deadlines l ops : did l ops -> deadlines_fit dl0 l -> deadlines_ok dl0 ops.
  Proof. intros (_ & _ & D) [A B]. split; [exact A|]. intros t I. exact (B _ (D _ I)). Qed.
End History.

(** With the registration addresses left to the proxy, any events (registrations, spam,
    lookups, epochs, reloads) leave the server running. *)
Theorem C96_keeps_running : forall (C : Crypto), CryptoOk C ->
  forall dl vk sk size r1 r2 d0, Directory_New dl vk sk size true r1 r2 = Ok d0 ->
  forall p socks b events, left_to_proxy p events -> (N.of_nat (ticks_of events) < 2 ^ 64 - 1)%N ->
  exists d, happens p socks b d0 events = Ok d.
Proof.
  intros C OK dl vk sk size r1 r2 d0 N p socks b events PM T.
  destruct (history OK dl vk sk size r1 r2 p socks b events [] d0) as (d & _ & H & _); [exists d0; split; [exact N|reflexivity]|exact T|exact PM|].
  exists d. exact H.
Qed.
Print Assumptions C96_keeps_running.

(** ** Asking *)
Lemma received_all s : length s <= 8192 -> received s = json_parse s.
Proof. intro L. unfold received. rewrite firstn_all2 by exact L. reflexivity. Qed.
Lemma own_named sender k : ascii sender -> text_names (own_request sender k) = [name1 sender].
Proof. intro A. unfold text_names, own_request. rewrite strip_app. cbn [obind]. rewrite (own_parsed sender k A). reflexivity. Qed.
Lemma asked_app a c : asked_names (a ++ c) = asked_names a ++ asked_names c.
Proof. unfold asked_names. apply flat_map_app. Qed.
Lemma ticks_app a c : ticks_of (a ++ c) = ticks_of a + ticks_of c.
Proof. induction a as [|e a IH]; [reflexivity|]. destruct e; cbn [app ticks_of]; rewrite IH; reflexivity. Qed.

(** What the answer to a registration may say about [k], given that [earlier] happened
    before: the key is promised, or another one, asked for earlier by an account
    whose name this is, is shown or promised. *)
Definition registration_outcome {C : Crypto} (vk : bytes) (d : Directory) (earlier : list event) (name k : bytes) (resp : Response) : Prop :=
  (exists ap tb, resp = NewRegistrationProof ap (LatestSTR d) (Some tb) ReqSuccess /\
     shows (vrf_pub vk) name ap None (tree_hash_of (LatestSTR d)) /\ tb_index tb = ap_lookup ap /\ tb_value tb = k) \/
  (exists ap tb v k0 sender0 text0 r0, resp = NewRegistrationProof ap (LatestSTR d) tb ReqNameExisted /\
     shows (vrf_pub vk) name ap v (tree_hash_of (LatestSTR d)) /\
     (v = Some k0 \/ exists t, tb = Some t /\ tb_value t = k0) /\
     In (DirectMessage sender0 text0 r0) earlier /\ asks sender0 text0 name k0).

Section Ask.
  Context {C : Crypto} (OK : CryptoOk C).
  Variables (dl : N) (vk sk : bytes) (size : nat) (r1 r2 : option bytes) (d0 : Directory).
  Hypothesis ND : Directory_New dl vk sk size true r1 r2 = Ok d0.
  Hypothesis VL : forall m, length (snd (vrf_prove vk m)) <= 96.
  Variables (p : permtable) (socks : sockets) (b : TwitterBot) (i : nat).
  Hypothesis RE : reaches b socks = Some i.
  Hypothesis PE : p i RegistrationType = true.
  Variables (dep K : nat).
  Hypothesis P0 : 0 < dep.
  Hypothesis SM : 130 * dep + 3 * K <= 6900.
  Variables (before : list event) (sender k : bytes) (r : bytes).
  Notation dm := (DirectMessage sender (own_request sender k) (Some r)).
  Hypothesis AS : ascii sender.
  Hypothesis SL : length sender <= 792.
  Hypothesis NH : ~ folds sender (tb_handle b).
  Hypothesis KN : k <> [].

  Lemma dep_248 : dep <= 248.
  Proof. rewrite n6900 in SM. lia. Qed.
  Lemma asking all after : all = before ++ dm :: after -> left_to_proxy p all -> (N.of_nat (ticks_of all) < 2 ^ 64 - 1)%N -> deadlines_fit dl all ->
    vrf_good vk (asked_names all) -> vrf_spread dep vk (asked_names all) -> asked_up_to K all ->
    exists d d' resp ops, happens p socks b d0 before = Ok d /\ did before ops /\ dir_built dl vk sk size r1 r2 ops d /\
      direct_message p socks b sender (own_request sender k) (Some r) d = Ok (d', [(sender, messagePrefix ++ response_text resp)]) /\
      length (response_text resp) <= 8192 /\
      UnmarshalResponse RegistrationType (json_parse (response_text resp)) = Ok resp /\
      registration_outcome vk d before (name1 sender) k resp /\
      dir_run d [DRegister (Some r) (name1 sender) k] = Ok d' /\
      (r_error resp = ReqSuccess -> reg ops (name1 sender) = None).
  Proof.
    intros EA PM TK DF VG VS AK.
    assert (INb : forall e, In e before -> In e all) by (intros e I; rewrite EA; apply in_or_app; left; exact I).
    assert (INd : In dm all) by (rewrite EA; apply in_or_app; right; left; reflexivity).
    assert (Tb : ticks_of before <= ticks_of all) by (rewrite EA, ticks_app; lia).
    assert (Nb : forall n, In n (asked_names before) -> In n (asked_names all)) by (intros n I; rewrite EA, asked_app; apply in_or_app; left; exact I).
    assert (Nd : In (name1 sender) (asked_names all)).
    { apply in_flat_map. exists dm. split; [exact INd|]. rewrite (own_named sender k AS). left. reflexivity. }
    assert (LK : length k <= K) by (exact (AK _ _ _ _ _ INd (own_asks sender k AS))).
    destruct (history OK dl vk sk size r1 r2 p socks b before [] d0) as (d & ops & H & R & D).
    { exists d0. split; [exact ND|reflexivity]. } { cbn [dupdates]. lia. } { intros a t x I. exact (PM _ _ _ (INb _ I)). }
    assert (B : dir_built dl vk sk size r1 r2 ops d) by (exists d0; split; [exact ND|exact R]).
    assert (F : few ops) by (unfold few; rewrite (proj1 D); lia).
    assert (DO : deadlines_ok dl ops).
    { apply (did_deadlines dl before ops D). destruct DF as [U V]. split; [exact U|]. intros t I. exact (V _ (INb _ I)). }
    assert (KO : keys_up_to K ops).
    { apply (did_keys K before ops D). intros s t x n q I. exact (AK s t x n q (INb _ I)). }
    assert (NI : forall n, In n (name1 sender :: names_of ops) -> In n (asked_names all)).
    { intros n [<-|I]; [exact Nd|]. exact (Nb _ (did_names before ops D n I)). }
    assert (VGo : vrf_good vk (name1 sender :: names_of ops)) by (exact (vrf_good_incl vk _ _ NI VG)).
    assert (VSo : vrf_spread dep vk (names_of ops)) by (intros a c Ia Ic; apply VS; apply NI; right; assumption).
    assert (UN : utf8 (name1 sender)) by (apply name1_utf8, AS).
    assert (NN : name1 sender <> []) by (intro E; apply (f_equal (@length _)) in E; rewrite name1_length in E; cbn [List.length] in E; lia).
    destruct (C24_register C OK dl vk sk size r1 r2 ops d (Some r) (name1 sender) k B F VGo) as (d' & resp & RG & CASES).
    pose proof (proj1 (C94_answers_fit C OK dl vk sk size r1 r2 ops d B F DO VL dep K P0 VSo KO SM (name1 sender) UN VGo) (Some r) k d' resp LK RG) as FIT.
    assert (REQ : length (json_text (CreateRegistrationMsg (name1 sender) k)) <= 8192).
    { assert (LN : length (name1 sender) <= 800) by (rewrite name1_length; lia).
      assert (LK' : length k <= 2300).
      { apply (Nat.le_trans _ K); [exact LK|]. rewrite n6900 in SM. replace 2300 with (23 * 100) by (vm_compute; reflexivity). lia. }
      exact (proj1 (C94_requests_fit (name1 sender) k UN LN LK')). }
    assert (READ : UnmarshalResponse RegistrationType (json_parse (response_text resp)) = Ok resp).
    { pose proof (C65_answers C OK dl vk sk size r1 r2 ops d B F DO (Some r) (WRegistration (name1 sender) k false false) d' resp) as X.
      cbn [wf_body directory_answer type_of] in X. specialize (X UN RG). rewrite (proj2 (Nat.leb_le _ _) FIT) in X.
      rewrite (received_all _ FIT) in X. exact X. }
    exists d, d', resp, ops. split; [exact H|]. split; [exact D|]. split; [exact B|].
    split.
    { pose proof (C79_registration C p socks b i d (Some r) sender k d' resp RE PE AS NH REQ RG) as X.
      rewrite (firstn_all2 (n := limit)) in X by exact FIT. exact X. }
    split; [exact FIT|]. split; [exact READ|].
    assert (N1 : is_nil (name1 sender) = false) by (destruct (name1 sender); [congruence|reflexivity]).
    assert (N2 : is_nil k = false) by (destruct k; [congruence|reflexivity]).
    rewrite N1, N2 in CASES. cbn [orb] in CASES. destruct CASES as (_ & CN & CP & CV).
    assert (WHO : forall k0, reg ops (name1 sender) = Some k0 -> exists sender0 text0 r0, In (DirectMessage sender0 text0 r0) before /\ asks sender0 text0 (name1 sender) k0).
    { intros k0 E. destruct (reg_requested ops _ _ E) as (x & I). destruct (proj1 (proj2 D) _ _ _ I) as (s0 & t0 & J & A). exists s0, t0, x. split; [exact J|exact A]. }
    split; [|split; [cbn [dir_run dir_step]; rewrite RG; reflexivity|]].
    - destruct (reg ops (name1 sender)) as [k0|] eqn:E.
      + right. destruct (WHO k0 eq_refl) as (s0 & t0 & x & J & A).
        destruct (visible ops (name1 sender)) as [k1|] eqn:V.
        * destruct (CV k1 eq_refl) as (_ & ap & ER & _ & SH). rewrite (visible_reg _ _ _ V) in E. injection E as ->.
          exists ap, None, (Some k0), k0, s0, t0, x. split; [exact ER|]. split; [exact SH|]. split; [left; reflexivity|]. split; [exact J|exact A].
        * destruct (CP k0 eq_refl eq_refl) as (_ & ap & tb & ER & _ & SH & _ & TV & _).
          exists ap, (Some tb), None, k0, s0, t0, x. split; [exact ER|]. split; [exact SH|].
          split; [right; exists tb; split; [reflexivity|exact TV]|]. split; [exact J|exact A].
      + left. destruct (CN eq_refl ltac:(discriminate)) as (ap & tb & ER & _ & SH & TI & TV & _). exists ap, tb. split; [exact ER|]. split; [exact SH|]. split; [exact TI|exact TV].
    - intro S. destruct (reg ops (name1 sender)) as [k0|] eqn:E; [exfalso|reflexivity].
      destruct (visible ops (name1 sender)) as [k1|] eqn:V.
      + destruct (CV k1 eq_refl) as (_ & ap & ER & _). rewrite ER in S. discriminate S.
      + destruct (CP k0 eq_refl eq_refl) as (_ & ap & tb & ER & _). rewrite ER in S. discriminate S.
  Qed.
End Ask.

Lemma same_reply {D} (d d' : D) (s m x y : bytes) : Ok (d, [(s, m ++ x)]) = Ok (d', [(s, m ++ y)]) -> d = d' /\ x = y.
Proof. intro E. injection E as E1 E2. split; [exact E1|]. exact (app_inv_head m x y E2). Qed.
(** Every account holder (with a name of at most 792 bytes) who sends the proxy the
    client's own request is answered by exactly one direct message, which the client
    can read: the key is promised for the next epoch, or the name was taken by an
    earlier request of an account with this name. The hypotheses are about the names
    and keys in use only. *)
Theorem C96_every_request_answered : forall (C : Crypto), CryptoOk C ->
  forall dl vk sk size r1 r2 d0, Directory_New dl vk sk size true r1 r2 = Ok d0 ->
  (forall m, length (snd (vrf_prove vk m)) <= 96) ->
  forall p socks b i, reaches b socks = Some i -> p i RegistrationType = true ->
  forall dep K, 0 < dep -> 130 * dep + 3 * K <= 6900 ->
  forall before sender k r, ascii sender -> length sender <= 792 -> ~ folds sender (tb_handle b) -> k <> [] ->
  let all := before ++ [DirectMessage sender (own_request sender k) (Some r)] in
  left_to_proxy p all -> (N.of_nat (ticks_of all) < 2 ^ 64 - 1)%N -> deadlines_fit dl all ->
  vrf_good vk (asked_names all) -> vrf_spread dep vk (asked_names all) -> asked_up_to K all ->
  exists d d' resp, happens p socks b d0 before = Ok d /\
    direct_message p socks b sender (own_request sender k) (Some r) d = Ok (d', [(sender, messagePrefix ++ response_text resp)]) /\
    UnmarshalResponse RegistrationType (json_parse (response_text resp)) = Ok resp /\
    registration_outcome vk d before (name1 sender) k resp.
Proof.
  intros C OK dl vk sk size r1 r2 d0 ND VL p socks b i RE PE dep K P0 SM before sender k r AS SL NH KN all PM TK DF VG VS AK.
  destruct (asking OK dl vk sk size r1 r2 d0 ND VL p socks b i RE PE dep K P0 SM before sender k r AS SL NH KN all [] eq_refl PM TK DF VG VS AK)
    as (d & d' & resp & ops & H & _ & _ & DMS & _ & RD & OUT & _).
  exists d, d', resp. split; [exact H|]. split; [exact DMS|]. split; [exact RD|exact OUT].
Qed.
Print Assumptions C96_every_request_answered.

(** If the request succeeded then, whatever happens afterwards, anybody who looks the
    name up at an address that takes lookups reads an answer with that key: as a
    promise until the first epoch has passed, in the tree ever after. *)
Theorem C96_then_found : forall (C : Crypto), CryptoOk C ->
  forall dl vk sk size r1 r2 d0, Directory_New dl vk sk size true r1 r2 = Ok d0 ->
  (forall m, length (snd (vrf_prove vk m)) <= 96) ->
  forall p socks b i, reaches b socks = Some i -> p i RegistrationType = true ->
  forall dep K, 0 < dep -> 130 * dep + 3 * K <= 6900 ->
  forall before sender k r after, ascii sender -> length sender <= 792 -> ~ folds sender (tb_handle b) -> k <> [] ->
  let all := before ++ DirectMessage sender (own_request sender k) (Some r) :: after in
  left_to_proxy p all -> (N.of_nat (ticks_of all) < 2 ^ 64 - 1)%N -> deadlines_fit dl all ->
  vrf_good vk (asked_names all) -> vrf_spread dep vk (asked_names all) -> asked_up_to K all ->
  forall d d' resp, happens p socks b d0 before = Ok d ->
  direct_message p socks b sender (own_request sender k) (Some r) d = Ok (d', [(sender, messagePrefix ++ response_text resp)]) ->
  UnmarshalResponse RegistrationType (json_parse (response_text resp)) = Ok resp -> r_error resp = ReqSuccess ->
  exists d2, happens p socks b d' after = Ok d2 /\
  forall a, p a KeyLookupType = true -> forall rr, exists ap tb,
    let answer := NewKeyLookupProof ap (LatestSTR d2) tb ReqSuccess in
    serve p a (json_text (CreateKeyLookupMsg (name1 sender))) rr d2 = Ok (d2, Some (response_text answer)) /\
    UnmarshalResponse KeyLookupType (received (response_text answer)) = Ok answer /\
    if Nat.eqb (ticks_of after) 0
    then shows (vrf_pub vk) (name1 sender) ap None (tree_hash_of (LatestSTR d2)) /\ exists t, tb = Some t /\ tb_value t = k
    else shows (vrf_pub vk) (name1 sender) ap (Some k) (tree_hash_of (LatestSTR d2)) /\ tb = None.
Proof.
  intros C OK dl vk sk size r1 r2 d0 ND VL p socks b i RE PE dep K P0 SM before sender k r after AS SL NH KN all PM TK DF VG VS AK dx dx' respx Hx Dx Rx Sx.
  destruct (asking OK dl vk sk size r1 r2 d0 ND VL p socks b i RE PE dep K P0 SM before sender k r AS SL NH KN all after eq_refl PM TK DF VG VS AK)
    as (d & d' & resp & ops & H & DB & B & DMS & FIT & RD & OUT & RUN & NEW).
  rewrite H in Hx. injection Hx as <-. rewrite DMS in Dx. destruct (same_reply _ _ _ _ _ _ Dx) as (<- & ET). clear Dx.
  assert (resp = respx) as <-.
  { rewrite <- ET, RD in Rx. injection Rx as Rx. exact Rx. }
  specialize (NEW Sx).
  assert (INa : forall e, In e after -> In e all) by (intros e I; unfold all; apply in_or_app; right; right; exact I).
  assert (TA : ticks_of all = ticks_of before + ticks_of after) by (unfold all; rewrite ticks_app; reflexivity).
  set (op := DRegister (Some r) (name1 sender) k) in *.
  assert (B' : dir_built dl vk sk size r1 r2 (ops ++ [op]) d') by (exact (run_built dl vk sk size r1 r2 ops d [op] d' B RUN)).
  destruct (history OK dl vk sk size r1 r2 p socks b after (ops ++ [op]) d' B') as (d2 & ops2 & H2 & R2 & D2).
  { rewrite dupdates_app, (proj1 DB). change (dupdates [op]) with 0. rewrite Nat.add_0_r, <- TA. exact TK. }
  { intros a t x I. exact (PM _ _ _ (INa _ I)). }
  exists d2. split; [exact H2|]. intros a PA rr.
  set (opsA := (ops ++ [op]) ++ ops2).
  assert (DA : did all opsA).
  { unfold opsA, all. split; [rewrite !dupdates_app, ticks_app; change (dupdates [op]) with 0; rewrite (proj1 DB), (proj1 D2), Nat.add_0_r; reflexivity|]. split.
    - intros x n q I. apply in_app_or in I as [I|I]; [apply in_app_or in I as [I|I]|].
      + destruct (proj1 (proj2 DB) _ _ _ I) as (s0 & t0 & J & A). exists s0, t0. split; [apply in_or_app; left; exact J|exact A].
      + destruct I as [I|[]]. injection I as <- <- <-. exists sender, (own_request sender k).
        split; [apply in_or_app; right; left; reflexivity|]. apply own_asks, AS.
      + destruct (proj1 (proj2 D2) _ _ _ I) as (s0 & t0 & J & A). exists s0, t0. split; [apply in_or_app; right; right; exact J|exact A].
    - intros t I. apply in_app_or in I as [I|I]; [apply in_app_or in I as [I|I]|].
      + apply in_or_app. left. exact (proj2 (proj2 DB) _ I).
      + destruct I as [I|[]]; discriminate I.
      + apply in_or_app. right. right. exact (proj2 (proj2 D2) _ I). }
  assert (BA : dir_built dl vk sk size r1 r2 opsA d2) by (exact (run_built dl vk sk size r1 r2 _ d' ops2 d2 B' R2)).
  assert (F : few opsA) by (unfold few; rewrite (proj1 DA); exact TK).
  assert (DO : deadlines_ok dl opsA) by (exact (did_deadlines dl all opsA DA DF)).
  assert (KO : keys_up_to K opsA) by (exact (did_keys K all opsA DA AK)).
  assert (Nd : In (name1 sender) (asked_names all)).
  { apply in_flat_map. exists (DirectMessage sender (own_request sender k) (Some r)). split; [unfold all; apply in_or_app; right; left; reflexivity|].
    rewrite (own_named sender k AS). left. reflexivity. }
  assert (NI : forall n, In n (name1 sender :: names_of opsA) -> In n (asked_names all)).
  { intros n [<-|I]; [exact Nd|]. exact (did_names all opsA DA n I). }
  assert (VGo : vrf_good vk (name1 sender :: names_of opsA)) by (exact (vrf_good_incl vk _ _ NI VG)).
  assert (VSo : vrf_spread dep vk (names_of opsA)) by (intros x y Ix Iy; apply VS; apply NI; right; assumption).
  assert (UN : utf8 (name1 sender)) by (apply name1_utf8, AS).
  assert (NN : name1 sender <> []) by (intro E; apply (f_equal (@length _)) in E; rewrite name1_length in E; cbn [List.length] in E; lia).
  assert (LN : length (name1 sender) <= 800) by (rewrite name1_length; lia).
  assert (REQ : length (json_text (CreateKeyLookupMsg (name1 sender))) <= 8192).
  { exact (proj2 (C94_requests_fit (name1 sender) [] UN LN (Nat.le_0_l 2300))). }
  destruct (C24_key_lookup C OK dl vk sk size r1 r2 opsA d2 (name1 sender) BA F VGo NN) as (ap & _ & SH & X).
  assert (NE : is_nil (name1 sender) = false) by (destruct (name1 sender); [congruence|reflexivity]).
  assert (RO : reg (ops ++ [op]) (name1 sender) = Some k).
  { rewrite reg_app. cbn [fold_left]. unfold op. cbn [reg_step].
    assert (N2 : is_nil k = false) by (destruct k; [congruence|reflexivity]).
    rewrite NE, N2. cbn [orb]. rewrite beq_refl, NEW. reflexivity. }
  assert (RA : reg opsA (name1 sender) = Some k) by (apply reg_mono; exact RO).
  assert (ANS : forall tb, KeyLookup d2 (name1 sender) = Ok (NewKeyLookupProof ap (LatestSTR d2) tb ReqSuccess) ->
    let answer := NewKeyLookupProof ap (LatestSTR d2) tb ReqSuccess in
    serve p a (json_text (CreateKeyLookupMsg (name1 sender))) rr d2 = Ok (d2, Some (response_text answer)) /\
    UnmarshalResponse KeyLookupType (received (response_text answer)) = Ok answer).
  { intros tb KL answer. split.
    - unfold serve. cbn [srv_sem]. unfold accept.
      rewrite (proj2 (C65_client_messages (name1 sender) []) REQ). unfold checkRequestType. cbn [q_type]. rewrite PA.
      rewrite (utf8_coerce_id _ UN). unfold HandleRequests. cbn [q_type q_body].
      change (Z.eqb KeyLookupType RegistrationType) with false. change (Z.eqb KeyLookupType KeyLookupType) with true. cbv iota.
      rewrite KL. reflexivity.
    - assert (FITL : length (response_text answer) <= 8192).
      { exact (proj2 (C94_answers_fit C OK dl vk sk size r1 r2 opsA d2 BA F DO VL dep K P0 VSo KO SM (name1 sender) UN VGo) answer NN KL). }
      pose proof (C65_answers C OK dl vk sk size r1 r2 opsA d2 BA F DO rr (WKeyLookup (name1 sender)) d2 answer) as Y.
      cbn [wf_body directory_answer type_of] in Y. rewrite KL in Y. specialize (Y UN eq_refl).
      rewrite (proj2 (Nat.leb_le _ _) FITL) in Y. exact Y. }
  assert (VIS : visible opsA (name1 sender) = if Nat.eqb (ticks_of after) 0 then None else Some k).
  { unfold visible. rewrite <- (proj1 D2). destruct (Nat.eqb_spec (dupdates ops2) 0) as [Z|NZ].
    - assert (DE : dupdates opsA = dupdates ops).
      { unfold opsA. rewrite !dupdates_app, Z. change (dupdates [op]) with 0. rewrite !Nat.add_0_r. reflexivity. }
      rewrite DE. unfold opsA. rewrite <- app_assoc. rewrite dupto_app by apply le_n.
      destruct (reg (dupto (dupdates ops) ops) (name1 sender)) as [k1|] eqn:E; [|reflexivity].
      apply reg_dupto in E. rewrite NEW in E. discriminate E.
    - destruct (dupto_past (ops ++ [op]) ops2 ltac:(lia)) as (c & E). unfold opsA. rewrite E. apply reg_mono. exact RO. }
  rewrite VIS in SH, X. destruct (Nat.eqb (ticks_of after) 0) eqn:Z.
  - rewrite RA in X. destruct X as (tb & KL & _ & TV & _). exists ap, (Some tb). cbv zeta.
    destruct (ANS (Some tb) KL) as (S1 & S2). split; [exact S1|]. split; [exact S2|]. split; [exact SH|]. exists tb. split; [reflexivity|exact TV].
  - exists ap, None. cbv zeta. destruct (ANS None X) as (S1 & S2). split; [exact S1|]. split; [exact S2|]. split; [exact SH|reflexivity].
Qed.
Print Assumptions C96_then_found.

(** ** From the two [init] commands *)
(** What account holders and everybody else may rely on: [fine] is the condition on the
    names in use, [K] the longest key in use. *)
Definition serves_holders {C : Crypto} (vk : bytes) (p : permtable) (socks : sockets) (b : TwitterBot) (d0 : Directory)
  (dl : N) (fine : list bytes -> Prop) (K : nat) : Prop :=
  forall before sender k r after, ascii sender -> length sender <= 792 -> ~ folds sender (tb_handle b) -> k <> [] ->
  let all := before ++ DirectMessage sender (own_request sender k) (Some r) :: after in
  left_to_proxy p all -> (N.of_nat (ticks_of all) < 2 ^ 64 - 1)%N -> deadlines_fit dl all -> fine (asked_names all) -> asked_up_to K all ->
  exists d d' resp, happens p socks b d0 before = Ok d /\
    direct_message p socks b sender (own_request sender k) (Some r) d = Ok (d', [(sender, messagePrefix ++ response_text resp)]) /\
    UnmarshalResponse RegistrationType (json_parse (response_text resp)) = Ok resp /\
    registration_outcome vk d before (name1 sender) k resp /\
  (r_error resp = ReqSuccess -> exists d2, happens p socks b d' after = Ok d2 /\
     forall a, p a KeyLookupType = true -> forall rr, exists ap tb,
     let answer := NewKeyLookupProof ap (LatestSTR d2) tb ReqSuccess in
     serve p a (json_text (CreateKeyLookupMsg (name1 sender))) rr d2 = Ok (d2, Some (response_text answer)) /\
     UnmarshalResponse KeyLookupType (received (response_text answer)) = Ok answer /\
     if Nat.eqb (ticks_of after) 0
     then shows (vrf_pub vk) (name1 sender) ap None (tree_hash_of (LatestSTR d2)) /\ exists t, tb = Some t /\ tb_value t = k
     else shows (vrf_pub vk) (name1 sender) ap (Some k) (tree_hash_of (LatestSTR d2)) /\ tb = None).
Lemma serves (C : Crypto) : CryptoOk C -> (forall vk m, length (snd (vrf_prove vk m)) <= 96) ->
  forall dl vk sk size r1 r2 d0, Directory_New dl vk sk size true r1 r2 = Ok d0 ->
  forall p socks b i, reaches b socks = Some i -> p i RegistrationType = true ->
  forall dep K, 0 < dep -> 130 * dep + 3 * K <= 6900 ->
  serves_holders vk p socks b d0 dl (fun names => vrf_good vk names /\ vrf_spread dep vk names) K.
Proof.
  intros OK VL dl vk sk size r1 r2 d0 ND p socks b i RE PE dep K P0 SM before sender k r after AS SL NH KN all PM TK DF [VG VS] AK.
  destruct (asking OK dl vk sk size r1 r2 d0 ND (VL vk) p socks b i RE PE dep K P0 SM before sender k r AS SL NH KN all after eq_refl PM TK DF VG VS AK)
    as (d & d' & resp & ops & H & _ & _ & DMS & _ & RD & OUT & _).
  exists d, d', resp. split; [exact H|]. split; [exact DMS|]. split; [exact RD|]. split; [exact OUT|].
  exact (C96_then_found C OK dl vk sk size r1 r2 d0 ND (VL vk) p socks b i RE PE dep K P0 SM before sender k r after AS SL NH KN PM TK DF VG VS AK d d' resp H DMS RD).
Qed.

(** A server and a proxy as the [init] commands set them up, started wherever: the
    account holders are served; the public address takes lookups and no registrations. *)
Theorem C96_default_deployment : forall (C : Crypto), CryptoOk C -> (forall vk m, length (snd (vrf_prove vk m)) <= 96) ->
  forall T, TomlOk T -> forall B, BotTomlOk B ->
  forall host a sk vk d cwd file net r1 r2 d0,
  deployed T a sk vk d -> length sk = 64 -> length vk = 64 -> utf8 (Path.Join (in_dir a) (key "config.toml")) ->
  locate cwd file = key "config.toml" :: home a -> locate_dir cwd file = home a ->
  d (log_name :: home a) <> Some Folder -> tls_files d (home a) ->
  net (key "unix:///tmp/coniks.sock") = true -> net (key "tcp://0.0.0.0:3000") = true ->
  Directory_New 60 vk sk (N.to_nat 1000000) true r1 r2 = Ok d0 ->
  exists d' p c, run_server T Fine net cwd d file r1 r2 = (d', Serving p) /\ sv_dir (pr_server p) = d0 /\
    Load T cwd d file (key "toml") = Ok (Some c) /\
    (forall i, sv_perms (pr_server p) i RegistrationType = true <-> i = 0) /\
    sv_perms (pr_server p) 1 KeyLookupType = true /\
  forall bcwd bdir bfile d2 account, utf8 (Path.Join bdir (key "botconfig.toml")) -> bot_file B d2 (locate bcwd bfile) bdir ->
    account [key "secret"; key "secret"; key "secret"; key "secret"] = Some (key "ConiksTorMess") ->
    let socks := listening host cwd 0 (ld_conns c) in
    exists b, bot_run B bcwd d2 socks account bfile = BRunning b /\ tb_handle b = key "ConiksTorMess" /\
    forall dep K, 0 < dep -> 130 * dep + 3 * K <= 6900 ->
      serves_holders vk (sv_perms (pr_server p)) socks b d0 60 (fun names => vrf_good vk names /\ vrf_spread dep vk names) K.
Proof.
  intros C OK VL T TO B BO host a sk vk d cwd file net r1 r2 d0 DE LS LV U L LD LG TL N1 N2 ND.
  destruct (C79_default_meeting C T TO B BO host a sk vk d cwd file net r1 r2 d0 DE LS LV U L LD LG TL N1 N2 ND)
    as (d' & p & c & R & SV & EL & PR & G).
  exists d', p, c. split; [exact R|]. split; [exact SV|]. split; [exact EL|]. split; [exact PR|].
  split.
  { destruct DE as (D0 & D1 & D2 & D3 & D4).
    destruct (load_default T cwd d file (key "toml") (Path.Join (in_dir a) (key "config.toml")) sk vk TO U) as (c' & EL' & DL);
      [unfold content; rewrite L, D1; reflexivity|unfold content; rewrite LD, D2; reflexivity|exact LS|unfold content; rewrite LD, D4; reflexivity|exact LV|].
    rewrite EL in EL'. injection EL' as <-. destruct DL as (_ & _ & _ & _ & _ & _ & _ & D8).
    destruct (serving_loaded C _ _ _ _ _ _ _ _ _ _ R) as (c2 & EL2 & PE). rewrite EL in EL2. injection EL2 as <-.
    rewrite PE, D8. reflexivity. }
  intros bcwd bdir bfile d2 account UB F A socks.
  destruct (G bcwd bdir bfile d2 account UB F A) as (b & BR & BH & RE).
  exists b. split; [exact BR|]. split; [exact BH|].
  intros dep K P0 SM. exact (serves C OK VL 60 vk sk (N.to_nat 1000000) r1 r2 d0 ND _ socks b 0 RE (proj2 (PR 0) eq_refl) dep K P0 SM).
Qed.
Print Assumptions C96_default_deployment.

(** ** The hypotheses are met *)
(** The events of C79's example, split at Alice's request or at Bob's, then epochs and a
    reload; keys of up to 900 bytes and 32 bits of index. *)
Definition text_keys (text : bytes) : list bytes :=
  match obind (obind (strip_prefix messagePrefix text) json_parse) UnmarshalRequest with
  | Some q => match q_body q with WRegistration _ k _ _ => [k] | _ => [] end
  | None => []
  end.
Lemma asks_key sender text n k : asks sender text n k -> In k (text_keys text).
Proof.
  intros (msg & q & u & v & -> & Q & B & _). unfold text_keys. rewrite strip_app. cbn [obind]. rewrite Q, B. left. reflexivity.
Qed.
Definition ex_after : list event := [Tick; Message 1 (ex_ask (key "Alice") [x02]) None; ReloadPolicies (Some 30%N); Tick].
Definition ex_all : list event := ex_events ++ ex_after.
Example C96_case : exists d0, @Directory_New FixedCrypto 60 [x11] [x10] 40 true (Some [x07]) (Some [x08]) = Ok d0 /\
  (forall m, length (snd (@vrf_prove FixedCrypto [x11] m)) <= 96) /\
  reaches ex_bot ex_socks = Some 0 /\ ex_perms 0 RegistrationType = true /\ ex_perms 1 KeyLookupType = true /\
  0 < 32 /\ 130 * 32 + 3 * 900 <= 6900 /\
  ex_all = [] ++ DirectMessage (key "Alice") (own_request (key "Alice") [x01]) (Some [x21]) :: (tl ex_events ++ ex_after) /\
  ex_all = firstn 4 ex_events ++ DirectMessage (key "Bob") (own_request (key "Bob") [x04]) (Some [x24]) :: ex_after /\
  ascii (key "Alice") /\ ascii (key "Bob") /\ ~ folds (key "Alice") (tb_handle ex_bot) /\ ~ folds (key "Bob") (tb_handle ex_bot) /\
  left_to_proxy ex_perms ex_all /\ (N.of_nat (ticks_of ex_all) < 2 ^ 64 - 1)%N /\ deadlines_fit 60 ex_all /\
  @vrf_good FixedCrypto [x11] (asked_names ex_all) /\ @vrf_spread FixedCrypto 32 [x11] (asked_names ex_all) /\ asked_up_to 900 ex_all.
Proof.
  destruct (C79_day) as (_ & _ & _ & _ & RE & PE & AA & NA & _).
  assert (H : match @Directory_New FixedCrypto 60 [x11] [x10] 40 true (Some [x07]) (Some [x08]) with Ok _ => true | Panic => false end = true) by (vm_compute; reflexivity).
  destruct (@Directory_New FixedCrypto 60 [x11] [x10] 40 true (Some [x07]) (Some [x08])) as [d0|]; [|discriminate H].
  exists d0. split; [reflexivity|]. split; [intro m; apply le_n|]. split; [exact RE|]. split; [exact PE|]. split; [reflexivity|].
  split; [lia|]. split; [apply Nat.leb_le; vm_compute; reflexivity|]. split; [reflexivity|]. split; [reflexivity|].
  split; [exact AA|].
  split. { intros c I. cbn in I. repeat (destruct I as [<-|I]; [reflexivity|]). destruct I. }
  split; [exact NA|]. split. { intro F. apply EqualFold_spec in F. vm_compute in F. discriminate F. }
  split. { intros addr text r I. unfold ex_all, ex_events, ex_after in I. cbn [app] in I. repeat (destruct I as [I|I]; [try discriminate I; injection I as <- _ _; reflexivity|]). destruct I. }
  split; [vm_compute; reflexivity|].
  split. { split; [vm_compute; reflexivity|]. intros t I. unfold ex_all, ex_events, ex_after in I. cbn [app] in I.
    repeat (destruct I as [I|I]; [try discriminate I; injection I as <-; vm_compute; reflexivity|]). destruct I. }
  assert (SPR : @vrf_spread FixedCrypto 32 [x11] (asked_names ex_all)).
  { set (L := asked_names ex_all).
    assert (A : forallb (fun a => forallb (fun b => if list_eq_dec Bool.bool_dec (firstn 32 (ToBits (@idx_of FixedCrypto [x11] a)))
        (firstn 32 (ToBits (@idx_of FixedCrypto [x11] b))) then beq a b else true) L) L = true) by (vm_compute; reflexivity).
    intros a b Ia Ib E. rewrite forallb_forall in A. specialize (A a Ia). cbv beta in A. rewrite forallb_forall in A. specialize (A b Ib).
    cbv beta in A. destruct (list_eq_dec _ _ _); [|contradiction]. apply beq_eq. exact A. }
  split; [split; [apply (vrf_spread_le [x11] 32); [apply Nat.leb_le; reflexivity|exact SPR]|intros k _; apply beq_eq; reflexivity]|].
  split; [exact SPR|].
  intros sender text r n k I A. apply asks_key in A.
  assert (Q : forallb (fun e => match e with DirectMessage _ t _ => forallb (fun k => Nat.leb (length k) 900) (text_keys t) | _ => true end) ex_all = true)
    by (vm_compute; reflexivity).
  rewrite forallb_forall in Q. specialize (Q _ I). cbv beta iota in Q. rewrite forallb_forall in Q. apply Nat.leb_le. exact (Q k A).
Qed.

(** ** With the actual functions *)
From Verif Require Import GoInt Field FieldSpec Scalar Fp EdGroup EdOrder Group EncFacts VRF VRFSpec VRFFacts Prop_VRF Ed25519 Prop_Ed25519 Hashes Prop_Real Prop_FitReal.
(** As [C96_default_deployment]; of the names in use two things are asked: none is hashed
    to the neutral element, and no two inputs of the index hash agree in [dep] bits. *)
Theorem C96_real_deployment : forall strict, let C := RealCrypto strict in
  forall T, TomlOk T -> forall B, BotTomlOk B ->
  forall host a sk vk d cwd file net r1 r2 d0,
  @deployed C T a sk vk d -> length sk = 64 -> length vk = 64 -> utf8 (Path.Join (in_dir a) (key "config.toml")) ->
  locate cwd file = key "config.toml" :: home a -> locate_dir cwd file = home a ->
  d (log_name :: home a) <> Some Folder -> tls_files d (home a) ->
  net (key "unix:///tmp/coniks.sock") = true -> net (key "tcp://0.0.0.0:3000") = true ->
  @Directory_New C 60 vk sk (N.to_nat 1000000) true r1 r2 = Ok d0 ->
  exists d' p c, @run_server C T Fine net cwd d file r1 r2 = (d', Serving p) /\ sv_dir (pr_server p) = d0 /\
    Load T cwd d file (key "toml") = Ok (Some c) /\
    (forall i, sv_perms (pr_server p) i RegistrationType = true <-> i = 0) /\
    sv_perms (pr_server p) 1 KeyLookupType = true /\
  forall bcwd bdir bfile d2 account, utf8 (Path.Join bdir (key "botconfig.toml")) -> bot_file B d2 (locate bcwd bfile) bdir ->
    account [key "secret"; key "secret"; key "secret"; key "secret"] = Some (key "ConiksTorMess") ->
    let socks := listening host cwd 0 (ld_conns c) in
    exists b, bot_run B bcwd d2 socks account bfile = BRunning b /\ tb_handle b = key "ConiksTorMess" /\
    forall dep K, 0 < dep -> 130 * dep + 3 * K <= 6900 ->
      @serves_holders C vk (sv_perms (pr_server p)) socks b d0 60
        (fun names => (forall n, In n names -> ~ H1 shake256 n pO) /\
                      (forall n n', In n names -> In n' names -> ~ index_collision dep vk n n')) K.
Proof.
  intros strict C T TO B BO host a sk vk d cwd file net r1 r2 d0 DE LS LV U L LD LG TL N1 N2 ND.
  destruct (@C96_default_deployment C (C92_laws strict) (fun vk m => real_proof_size strict vk m) T TO B BO host a sk vk d cwd file net r1 r2 d0 DE LS LV U L LD LG TL N1 N2 ND)
    as (d' & p & c & R & SV & EL & PR & PL & G).
  exists d', p, c. split; [exact R|]. split; [exact SV|]. split; [exact EL|]. split; [exact PR|]. split; [exact PL|].
  intros bcwd bdir bfile d2 account UB F A socks.
  destruct (G bcwd bdir bfile d2 account UB F A) as (b & BR & BH & H).
  exists b. split; [exact BR|]. split; [exact BH|].
  intros dep K P0 SM before sender k r after AS SL NH KN all PM TK DF [NO NC] AK.
  apply (H dep K P0 SM before sender k r after AS SL NH KN PM TK DF); [|exact AK].
  assert (SPR : @vrf_spread C dep vk (asked_names all)).
  { destruct (C94_spread_or_collision strict dep vk (asked_names all)) as [S|(n & n' & I & I' & _ & X)]; [exact S|destruct (NC n n' I I' X)]. }
  assert (D248 : dep <= 248) by (rewrite n6900 in SM; lia).
  split; [|exact SPR]. split; [exact (vrf_spread_le vk dep 248 _ D248 SPR)|]. intros n I. apply C92_proofs_accepted. exact (NO n I).
Qed.
Print Assumptions C96_real_deployment.
