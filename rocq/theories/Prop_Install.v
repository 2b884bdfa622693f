(** C86: from the files of an installation to the lines on the user's screen. *)
From Coq Require Import List NArith ZArith Lia Bool Arith.
From Coq Require Import String.
From Verif Require Import Base Utils Crypto Tree TreeSpec STR PAD PADSpec PADFacts Protocol Directory DirSpec DirFacts DirMain
  Auditor AudSpec AudFacts Client ClientSpec ClientFacts JointFacts Prop_Directory Prop_Client Path Json JsonText Wire Text TextFacts
  ServerWire Conc Server Prop_Server Prop_Text Cli Prop_Cli Deploy DeployFacts Prop_Deploy BotDeploy Repl Prop_Repl.
Import ListNotations.
Local Open Scope list_scope.
Local Open Scope nat_scope.
Notation length := List.length.

Local Ltac names := apply name_ok_is; reflexivity.

(** ** The server *)

(** Where the server says it writes its initial STR: beside the file that the
    configuration names as its own, as seen from the folder it is started in. *)
Definition str_place (cwd : place) (file : bytes) (doc : ServerDoc) : place :=
  beside cwd (match sd_path doc with Some p => p | None => file end) (sd_str doc).
(** The server's address number [i] takes registrations, or at least lookups. *)
Definition takes_registrations (doc : ServerDoc) (i : nat) : Prop :=
  exists a, nth_error (sd_addrs doc) i = Some a /\ aa_allow a = true.
Definition takes_lookups (doc : ServerDoc) (i : nat) : Prop := nth_error (sd_addrs doc) i <> None.

Lemma addresses_nth (conns : list (Conn * bool)) i c b : nth_error conns i = Some (c, b) -> In (mkAddress i b) (addresses conns).
Proof.
  unfold addresses. intro H.
  assert (G : forall (l : list (Conn * bool)) s i, nth_error l i = Some (c, b) ->
    In (mkAddress (s + i) b) (map (fun x => mkAddress (fst x) (snd x)) (combine (seq s (length l)) (map snd l)))).
  { induction l as [|y l IH]; intros s [|j] E; cbn [nth_error] in E; try discriminate E.
    - injection E as ->. cbn [length seq map combine snd fst]. left. rewrite Nat.add_0_r. reflexivity.
    - cbn [length seq map combine]. right. rewrite <- Nat.add_succ_comm. apply IH. exact E. }
  apply (G conns 0 i H).
Qed.
Lemma addresses_distinct (conns : list (Conn * bool)) : distinct_addrs (addresses conns).
Proof.
  unfold distinct_addrs, addresses. rewrite map_map. cbn [ad_ptr].
  assert (G : forall (l : list (Conn * bool)) s, map (fun x : nat * bool => fst x) (combine (seq s (length l)) (map snd l)) = seq s (length l)).
  { induction l as [|y l IH]; intro s; [reflexivity|]. cbn [length seq map combine fst]. rewrite IH. reflexivity. }
  rewrite G. apply seq_NoDup.
Qed.
Lemma same_nth file l r i a : same_conns file l r -> nth_error l i = Some a -> exists c, nth_error r i = Some (c, aa_allow a).
Proof.
  intros F. revert i. induction F as [|x y l r (c & _ & S & _) F IH]; intros [|i] E; cbn [nth_error] in E; try discriminate E.
  - injection E as ->. destruct y as [k b]. cbn [snd] in S. subst b. exists k. reflexivity.
  - apply IH. exact E.
Qed.

(** What a server that serves has done: read the configuration, made its first
    snapshot with the keys named there, written it. *)
Theorem C86_serving : forall (C : Crypto) T net cwd d file r1 r2 d' p,
  run_server T Fine net cwd d file r1 r2 = (d', Serving p) ->
  exists text doc pol lg sk vk,
    content d (locate cwd file) = Some text /\ server_parse T text = Some doc /\
    sd_pol doc = Some pol /\ sd_logger doc = Some lg /\
    content d (beside cwd file (po_sign pol)) = Some sk /\ content d (beside cwd file (po_vrf pol)) = Some vk /\
    Directory_New (po_deadline pol) vk sk (N.to_nat (sd_hist doc)) true r1 r2 = Ok (sv_dir (pr_server p)) /\
    (forall i, takes_registrations doc i -> sv_perms (pr_server p) i RegistrationType = true) /\
    (forall i a, nth_error (sd_addrs doc) i = Some a -> aa_allow a = false -> sv_perms (pr_server p) i RegistrationType = false) /\
    (forall i, takes_lookups doc i -> sv_perms (pr_server p) i KeyLookupType = true) /\
    (d (str_place cwd file doc) = None -> d (tl (str_place cwd file doc)) = Some Folder ->
     str_place cwd file doc <> beside cwd file (lg_path lg) ->
     d' (str_place cwd file doc) = Some (File (str_text (sv_dir (pr_server p))))).
Proof.
  intros C T net cwd d file r1 r2 d' p R. unfold run_server in R.
  destruct (Load T cwd d file (key "toml")) as [[c|]|] eqn:EL; [| |]; try discriminate R.
  apply C70_load_iff in EL as (text & doc & pol & lg & sk & vk & A1 & A2 & A3 & A4 & A5 & _ & A6 & _ & A7 & A8 & A9 & B1 & B2 & B3 & B4 & _ & _ & B5 & B6 & _).
  exists text, doc, pol, lg, sk, vk. repeat (split; [assumption|]).
  destruct (StartServer Fine cwd d c r1 r2) as [[dx [q|]]|] eqn:ES; [| |]; try discriminate R.
  assert (X : dx = d' /\ q = p).
  { destruct (Run net cwd dx (ld_conns c)); [|discriminate R]. injection R as <- <-. split; reflexivity. }
  destruct X as [-> ->]. clear R.
  unfold StartServer in ES. destruct (NewLogger cwd d (ld_logger c)) as [d1|] eqn:NL; cbn [bind] in ES; [|discriminate ES].
  unfold NewConiksServer, to_config in ES. cbn [cf_pol cf_hist cf_addrs cf_deadline] in ES.
  rewrite A8, A9, B1, B2 in ES.
  destruct (Directory_New (po_deadline pol) vk sk (N.to_nat (sd_hist doc)) true r1 r2) as [d0|] eqn:ND; cbn [bind sv_dir] in ES; [|discriminate ES].
  destruct (WriteFile Fine cwd d1 (ResolvePath (ld_str c) (ld_path c)) (json_text (enc_dirstr (LatestSTR d0)))) as [d2 ret] eqn:W.
  assert (EP : ret <> None /\ d2 = d' /\ pr_server p = mkServer (permissions (addresses (ld_conns c))) d0 (NewEpochTimer (ld_deadline c))).
  { destruct ret as [ok|].
    - injection ES as E1 E2. subst d2. rewrite <- E2. split; [discriminate|]. split; reflexivity.
    - apply (f_equal (fun o => match o with Ok (_, Some _) => true | _ => false end)) in ES. cbn iota in ES. discriminate ES. }
  destruct EP as (_ & -> & ->). cbn [sv_dir sv_perms]. clear ES.
  split; [reflexivity|].
  assert (IN : forall i a, nth_error (sd_addrs doc) i = Some a -> In (mkAddress i (aa_allow a)) (addresses (ld_conns c))).
  { intros i a E. destruct (same_nth _ _ _ _ _ A7 E) as (k & K). exact (addresses_nth _ _ _ _ K). }
  pose proof (addresses_distinct (ld_conns c)) as DI.
  split; [|split; [|split]].
  - intros i (a & E & AL). apply (C41_permission_table _ _ DI (IN i a E) RegistrationType). cbn [ad_allow]. tauto.
  - intros i a E AL. destruct (permissions (addresses (ld_conns c)) i RegistrationType) eqn:P; [exfalso|reflexivity].
    apply (C41_permission_table _ _ DI (IN i a E) RegistrationType) in P. cbn [ad_allow] in P.
    destruct P as [P|[P|[P|[_ P]]]]; [discriminate P|discriminate P|discriminate P|congruence].
  - intros i E. unfold takes_lookups in E. destruct (nth_error (sd_addrs doc) i) as [a|] eqn:E1; [|congruence].
    apply (C41_permission_table _ _ DI (IN i a E1) KeyLookupType). tauto.
  - intros N F NE. set (s := str_place cwd file doc) in *.
    assert (LS : locate cwd (ResolvePath (ld_str c) (ld_path c)) = s).
    { unfold s, str_place. rewrite locate_beside, B3, B6. reflexivity. }
    assert (LO : forall q, q <> beside cwd file (lg_path lg) \/ d q <> None -> d1 q = d q).
    { unfold NewLogger in NL. rewrite B5 in NL. rewrite locate_beside in NL.
      destruct (_ || _) in NL; [|discriminate NL]. destruct (_ || _) in NL; [injection NL as <-; reflexivity|].
      destruct (d (beside cwd file (lg_path lg))) as [[b|]|] eqn:EG in NL; [injection NL as <-; reflexivity|discriminate NL|].
      destruct (is_folder _ _) in NL; [|discriminate NL]. injection NL as <-. intros q [Q|Q]; [apply put_other; exact Q|].
      apply put_other. intros ->. exact (Q EG). }
    unfold WriteFile in W. rewrite LS in W. rewrite (LO s (or_introl NE)), N in W.
    assert (FD : is_folder d1 (tl s) = true) by (unfold is_folder; rewrite (LO (tl s)), F; [reflexivity|right; congruence]).
    rewrite FD in W. cbn [write_to] in W. injection W as <- _. apply put_same.
Qed.
Print Assumptions C86_serving.

(** ** The client beside it *)

(** The client's configuration: where its file is, what it says, and that the
    two files it refers to are the server's public signing key and the file
    the server has written. *)
Definition client_of (T : Toml) (d : disk) (cwd : place) (file : bytes) (cdoc : ClientDoc) (pk : bytes) (str : place) : Prop :=
  (exists text, content d (locate cwd file) = Some text /\ client_parse T text = Some cdoc) /\
  content d (beside cwd file (cd_pub cdoc)) = Some pk /\ beside cwd file (cd_str cdoc) = str.
(** Registrations go to the registration address, if there is one. *)
Definition reg_of (cdoc : ClientDoc) : bytes := match cd_reg cdoc with [] => cd_addr cdoc | _ => cd_reg cdoc end.

Lemma reg_address_of conf cdoc : cl_reg conf = cd_reg cdoc -> cl_addr conf = cd_addr cdoc -> reg_address conf = reg_of cdoc.
Proof. intros A B. unfold reg_address, reg_of. rewrite A, B. destruct (cd_reg cdoc); reflexivity. Qed.

Lemma client_loads (C : Crypto) T d cwd file enc cdoc pk str j s :
  client_of T d cwd file cdoc pk str -> length pk = 32 ->
  content d str = Some j -> (exists v, json_parse j = Some v /\ LoadInitSTR (fun _ => Some v) [] = Ok (Some s)) ->
  exists cl, ClientLoad T cwd d file enc = Ok (Some cl) /\ cl_key cl = pk /\ cl_str cl = s /\ cl_reg cl = cd_reg cdoc /\ cl_addr cl = cd_addr cdoc.
Proof.
  intros ((text & F & P) & EP & BS) LP EJ (v & PJ & LJ).
  unfold ClientLoad, ReadFile at 1. fold (content d (locate cwd file)). rewrite F, P.
  unfold LoadSigningPubKey. rewrite read_beside, EP. unfold PublicKeySize. rewrite LP. cbn [Nat.eqb].
  unfold LoadInitSTR_at. rewrite read_beside, BS, EJ, PJ, LJ. cbn [bind option_map].
  eexists. split; [reflexivity|]. repeat split; reflexivity.
Qed.

(** The server has been started from its configuration file and serves; the
    client's configuration refers to the files of that server; its addresses
    lead to addresses of the server ([at_addr]: which one a dialled address
    reaches), the one for registrations to one that takes them.  Then the
    client loads its configuration, starts, and whatever is typed and whatever
    the other users do, the screen shows what happened to the names, as long as
    no epoch is missed and no message is longer than 8192 bytes. *)
Theorem C86_install_to_screen : forall (C : Crypto), CryptoOk C -> (forall sk, length (sign_pub sk) = 32) ->
  forall T net cwd d file r1 r2 d' p, run_server T Fine net cwd d file r1 r2 = (d', Serving p) ->
  forall text doc pol lg sk vk,
  content d (locate cwd file) = Some text -> server_parse T text = Some doc ->
  sd_pol doc = Some pol -> sd_logger doc = Some lg -> (po_deadline pol < 2 ^ 64)%N ->
  content d (beside cwd file (po_sign pol)) = Some sk -> content d (beside cwd file (po_vrf pol)) = Some vk ->
  d (str_place cwd file doc) = None -> d (tl (str_place cwd file doc)) = Some Folder ->
  str_place cwd file doc <> beside cwd file (lg_path lg) ->
  forall host at_addr d2 cwdc filec enc cdoc debug,
  d2 (str_place cwd file doc) = d' (str_place cwd file doc) ->
  client_of T d2 cwdc filec cdoc (sign_pub sk) (str_place cwd file doc) ->
  usable host (cd_addr cdoc) = Ok true -> usable host (reg_of cdoc) = Ok true ->
  takes_registrations doc (at_addr (reg_of cdoc)) -> takes_lookups doc (at_addr (cd_addr cdoc)) ->
  let perms := sv_perms (pr_server p) in
  exists conf st0, ClientLoad T cwdc d2 filec enc = Ok (Some conf) /\ repl_start conf debug = Ok st0 /\
  forall cmds evs, Forall2 spelled cmds evs ->
    no_missed_epoch 0 cmds -> Forall wf_command cmds -> few (calls perms cmds) -> deadlines_ok (po_deadline pol) (calls perms cmds) ->
    vrf_good vk (flat_map looked_up cmds ++ names_of (calls perms cmds)) ->
    Forall (fun t => length t <= 8192) (texts perms at_addr conf (sv_dir (pr_server p)) (rp_cc st0) cmds) ->
    exists dn st, session host perms at_addr conf (sv_dir (pr_server p)) st0 evs =
      Ok (dn, st, map (fun s => (debug, key "[+] " ++ message [] s)) (expected perms [] cmds)).
Proof.
  intros C OK PL T net cwd d file r1 r2 d' p R text doc pol lg sk vk A1 A2 A3 A4 LT A5 A6 N F NE host at_addr d2 cwdc filec enc cdoc debug SD CO UA UR TR TL perms.
  destruct (C86_serving C T net cwd d file r1 r2 d' p R) as (text' & doc' & pol' & lg' & sk' & vk' & B1 & B2 & B3 & B4 & B5 & B6 & ND & PR & _ & PK & WR).
  rewrite A1 in B1. injection B1 as <-. rewrite A2 in B2. injection B2 as <-. rewrite A3 in B3. injection B3 as <-.
  rewrite A4 in B4. injection B4 as <-. rewrite A5 in B5. injection B5 as <-. rewrite A6 in B6. injection B6 as <-.
  specialize (WR N F NE).
  set (d0 := sv_dir (pr_server p)) in *. clearbody d0.
  destruct (load_str_text C OK (po_deadline pol) vk sk _ r1 r2 d0 LT ND) as (PJ & LJ).
  destruct (client_loads C T d2 cwdc filec enc cdoc (sign_pub sk) (str_place cwd file doc) (str_text d0) (LatestSTR d0) CO (PL sk)) as (conf & CL & K & S1 & RG & AD).
  { unfold content. rewrite SD, WR. reflexivity. }
  { exists (enc_dirstr (LatestSTR d0)). split; assumption. }
  pose proof (reg_address_of conf cdoc RG AD) as RA.
  destruct (repl_start conf debug) as [st0|] eqn:ST.
  2:{ unfold repl_start in ST. destruct (Client_New (cl_str conf) true (cl_key conf)) as [cc0|] eqn:CN; [discriminate ST|discriminate CN]. }
  exists conf, st0. split; [exact CL|]. split; [exact ST|].
  intros cmds evs SP NM W FW DL VS FT.
  apply (C84_honest_server C OK host perms at_addr conf debug (po_deadline pol) vk sk (N.to_nat (sd_hist doc)) r1 r2 d0 st0 cmds evs ND S1 K ST);
    try assumption.
  - rewrite AD. exact UA.
  - rewrite RA. exact UR.
  - rewrite RA. apply PR. exact TR.
  - rewrite AD. apply PK. exact TL.
Qed.
Print Assumptions C86_install_to_screen.

(** *** What [coniksserver init] makes *)

(** The server of [init] and a client whose registration address is the
    server's socket for registrations: the whole chain, from [init] on. *)
Theorem C86_default_server : forall (C : Crypto), CryptoOk C -> (forall sk, length (sign_pub sk) = 32) ->
  forall T, TomlOk T -> forall a sk vk d cwd file net r1 r2 d0,
  deployed T a sk vk d -> length sk = 64 -> length vk = 64 -> utf8 (Join (in_dir a) (key "config.toml")) ->
  locate cwd file = key "config.toml" :: home a -> locate_dir cwd file = home a -> locate cwd (in_dir a) = home a ->
  d (log_name :: home a) <> Some Folder -> d (str_name :: home a) = None -> tls_files d (home a) ->
  net (key "unix:///tmp/coniks.sock") = true -> net (key "tcp://0.0.0.0:3000") = true ->
  Directory_New 60 vk sk (N.to_nat 1000000) true r1 r2 = Ok d0 ->
  exists d' p, run_server T Fine net cwd d file r1 r2 = (d', Serving p) /\ sv_dir (pr_server p) = d0 /\
  sv_perms (pr_server p) 0 RegistrationType = true /\ sv_perms (pr_server p) 1 RegistrationType = false /\
  forall host at_addr d2 cwdc filec enc cdoc debug,
  d2 (str_name :: home a) = d' (str_name :: home a) ->
  client_of T d2 cwdc filec cdoc (sign_pub sk) (str_name :: home a) ->
  usable host (cd_addr cdoc) = Ok true -> usable host (reg_of cdoc) = Ok true ->
  at_addr (reg_of cdoc) = 0 -> at_addr (cd_addr cdoc) <= 1 ->
  let perms := sv_perms (pr_server p) in
  exists conf st0, ClientLoad T cwdc d2 filec enc = Ok (Some conf) /\ repl_start conf debug = Ok st0 /\
  forall cmds evs, Forall2 spelled cmds evs ->
    no_missed_epoch 0 cmds -> Forall wf_command cmds -> few (calls perms cmds) -> deadlines_ok 60 (calls perms cmds) ->
    vrf_good vk (flat_map looked_up cmds ++ names_of (calls perms cmds)) ->
    Forall (fun t => length t <= 8192) (texts perms at_addr conf d0 (rp_cc st0) cmds) ->
    exists dn st, session host perms at_addr conf d0 st0 evs =
      Ok (dn, st, map (fun s => (debug, key "[+] " ++ message [] s)) (expected perms [] cmds)).
Proof.
  intros C OK PL T TO a sk vk d cwd file net r1 r2 d0 DE LS LV U L LD SAME LG ES TL N1 N2 ND.
  destruct (C71_start C T TO a sk vk d cwd file net r1 r2 d0 DE LS LV U L LD LG N1 N2 ND) as (d' & p & R & _ & SV & _ & _ & S1 & _ & S3).
  specialize (R TL). exists d', p. split; [exact R|]. split; [exact SV|].
  destruct DE as (D0 & D1 & D2 & D3 & D4).
  pose (cfile := Join (in_dir a) (key "config.toml")).
  assert (PA : server_parse T (server_text T (default_doc cfile)) = Some (default_doc cfile)) by (apply TO, default_plain, U).
  assert (CT : content d (locate cwd file) = Some (server_text T (default_doc cfile))) by (unfold content; rewrite L, D1; reflexivity).
  destruct (C86_serving C T net cwd d file r1 r2 d' p R) as (text' & doc' & pol' & lg' & sk' & vk' & B1 & B2 & B3 & B4 & B5 & B6 & ND' & PR & PN & PK & WR).
  rewrite CT in B1. injection B1 as <-. rewrite PA in B2. injection B2 as <-.
  split; [apply PR; eexists; split; [reflexivity|reflexivity]|].
  split; [eapply PN; [reflexivity|reflexivity]|].
  clear sk' vk' B5 B6 ND' WR PR PN PK B3 B4 pol' lg'.
  assert (SP : str_place cwd file (default_doc cfile) = str_name :: home a).
  { unfold str_place. cbn [default_doc sd_path sd_str]. change (key "init.str") with str_name. rewrite beside_name by names.
    unfold cfile. rewrite (proj2 (locate_Join cwd (in_dir a) (key "config.toml") ltac:(names))), SAME. reflexivity. }
  intros host at_addr d2 cwdc filec enc cdoc debug SD CO UA UR AR AA perms.
  assert (KEYS : content d (beside cwd file (key "sign.priv")) = Some sk /\ content d (beside cwd file (key "vrf.priv")) = Some vk).
  { rewrite !beside_name by names. rewrite LD. unfold content. rewrite D2, D4. split; reflexivity. }
  destruct (C86_install_to_screen C OK PL T net cwd d file r1 r2 d' p R (server_text T (default_doc cfile)) (default_doc cfile)
    (mkPol 60 (key "vrf.priv") (key "sign.priv")) (mkLogger true (key "development") (key "coniksserver.log")) sk vk CT PA eq_refl eq_refl eq_refl (proj1 KEYS) (proj2 KEYS))
    with (host := host) (at_addr := at_addr) (d2 := d2) (cwdc := cwdc) (filec := filec) (enc := enc) (cdoc := cdoc) (debug := debug)
    as (conf & st0 & CL & ST & G).
  - rewrite SP. exact ES.
  - rewrite SP. exact D0.
  - rewrite SP. cbn [lg_path]. change (key "coniksserver.log") with log_name. rewrite beside_name by names. discriminate.
  - rewrite SP. exact SD.
  - rewrite SP. exact CO.
  - exact UA.
  - exact UR.
  - rewrite AR. eexists. split; reflexivity.
  - unfold takes_lookups. destruct (at_addr (cd_addr cdoc)) as [|[|n]]; [discriminate|discriminate|lia].
  - exists conf, st0. split; [exact CL|]. split; [exact ST|]. cbv zeta in G. cbn [po_deadline] in G.
    fold perms in G. rewrite SV in G. exact G.
Qed.
Print Assumptions C86_default_server.

(** *** A server address that takes no registrations *)

Lemma refused_register {C : Crypto} cc name k :
  register cc (Some (Some (MarshalResponse (NewErrorResponse ErrMalformedMessage)))) name k = Ok (cc, SError ErrMalformedMessage).
Proof. reflexivity. Qed.
Theorem C86_registration_refused : forall (C : Crypto) host p at_addr conf d st r line name k,
  usable host (reg_address conf) = Ok true -> p (at_addr (reg_address conf)) RegistrationType = false ->
  Fields line = [key "register"; name; k] -> length (json_text (CreateRegistrationMsg name k)) <= 8192 ->
  session_step host p at_addr conf d st (ELine r line) =
    Ok (d, mkEffect st [(rp_debug st, key "[+] Error: [coniks] Malformed message")]
             [(reg_address conf, json_text (CreateRegistrationMsg name k))] true).
Proof.
  intros C host p at_addr conf d st r line name k UR NP F FT.
  unfold session_step, asked. rewrite (turn_register host conf UR st line (RError []) name k F). cbn [answer_of register bind ef_sent].
  unfold serve. rewrite (fit_received (CreateRegistrationMsg name k) (request_utf8 RegistrationType (WRegistration name k false false) ltac:(discriminate)) FT).
  assert (SV : srv_sem p (OMsg (at_addr (reg_address conf)) (Some (CreateRegistrationMsg name k)) (Some r)) d =
               Ok (d, Some (NewErrorResponse ErrMalformedMessage))).
  { cbn [srv_sem]. unfold accept. cbn [obind]. rewrite registration_msg. unfold checkRequestType. cbn [q_type]. rewrite NP. reflexivity. }
  rewrite SV. cbn [bind]. rewrite (turn_register host conf UR st line _ name k F). cbn [answer_of error_of].
  unfold response_text. rewrite (fit_received (MarshalResponse (NewErrorResponse ErrMalformedMessage)) (response_utf8 _)).
  2:{ apply Nat.leb_le. vm_compute. reflexivity. }
  rewrite refused_register. cbn [bind]. destruct st. reflexivity.
Qed.
Print Assumptions C86_registration_refused.

(** "The client made by [coniksclient init] works with the server made by
    [coniksserver init]" is false: both addresses it writes are the server's
    public one, which takes no registrations, so every [register] typed there
    fails with a message about a malformed message, whatever the name and the
    key, and nothing changes. *)
Theorem C86_default_pair_refuted : forall (C : Crypto) T, TomlOk T -> forall a sk vk d cwd file net r1 r2 d0,
  deployed T a sk vk d -> length sk = 64 -> length vk = 64 -> utf8 (Join (in_dir a) (key "config.toml")) ->
  locate cwd file = key "config.toml" :: home a -> locate_dir cwd file = home a ->
  d (log_name :: home a) <> Some Folder -> tls_files d (home a) ->
  net (key "unix:///tmp/coniks.sock") = true -> net (key "tcp://0.0.0.0:3000") = true ->
  Directory_New 60 vk sk (N.to_nat 1000000) true r1 r2 = Ok d0 ->
  exists d' p, run_server T Fine net cwd d file r1 r2 = (d', Serving p) /\
  forall host at_addr filec conf dn st r line name k,
  cl_reg conf = cd_reg (client_default filec) -> cl_addr conf = cd_addr (client_default filec) ->
  host (key "127.0.0.1:3000") = true -> at_addr (key "tcp://127.0.0.1:3000") = 1 ->
  Fields line = [key "register"; name; k] -> length (json_text (CreateRegistrationMsg name k)) <= 8192 ->
  session_step host (sv_perms (pr_server p)) at_addr conf dn st (ELine r line) =
    Ok (dn, mkEffect st [(rp_debug st, key "[+] Error: [coniks] Malformed message")]
              [(key "tcp://127.0.0.1:3000", json_text (CreateRegistrationMsg name k))] true).
Proof.
  intros C T TO a sk vk d cwd file net r1 r2 d0 DE LS LV U L LD LG TL N1 N2 ND.
  destruct (C71_start C T TO a sk vk d cwd file net r1 r2 d0 DE LS LV U L LD LG N1 N2 ND) as (d' & p & R & _ & _).
  specialize (R TL). exists d', p. split; [exact R|].
  destruct DE as (D0 & D1 & D2 & D3 & D4).
  pose (cfile := Join (in_dir a) (key "config.toml")).
  assert (PA : server_parse T (server_text T (default_doc cfile)) = Some (default_doc cfile)) by (apply TO, default_plain, U).
  assert (CT : content d (locate cwd file) = Some (server_text T (default_doc cfile))) by (unfold content; rewrite L, D1; reflexivity).
  destruct (C86_serving C T net cwd d file r1 r2 d' p R) as (text' & doc' & pol' & lg' & sk' & vk' & B1 & B2 & _ & _ & _ & _ & _ & _ & PN & _).
  rewrite CT in B1. injection B1 as <-. rewrite PA in B2. injection B2 as <-.
  intros host at_addr filec conf dn st r line name k RG AD H AT F FT.
  assert (RA : reg_address conf = key "tcp://127.0.0.1:3000") by (unfold reg_address; rewrite RG; reflexivity).
  pose proof (C86_registration_refused C host (sv_perms (pr_server p)) at_addr conf dn st r line name k) as G.
  rewrite RA in G. apply G.
  - exact (proj2 (C84_default_address C host filec H)).
  - rewrite AT. eapply PN; [reflexivity|reflexivity].
  - exact F.
  - exact FT.
Qed.
Print Assumptions C86_default_pair_refuted.

(** ** A concrete installation *)

(** The set-up for tests of cli/coniksserver/README.md: one public address
    that takes registrations; the client uses it for everything. *)
Definition ins_doc : ServerDoc :=
  mkServerDoc (Some (key "config.toml")) (Some (key "toml")) (Some (mkLogger true (key "development") (key "coniksserver.log")))
    10 (Some (mkPol 60 (key "vrf.priv") (key "sign.priv"))) (key "init.str")
    [mkAddr (Some (mkConn (key "tcp://0.0.0.0:3000") (key "server.pem") (key "server.key"))) true] 0.
Definition ins_cdoc : ClientDoc :=
  mkClientDoc None None (key "../srv/sign.pub") (key "../srv/init.str") [] (key "tcp://127.0.0.1:3000").
Definition ins_disk : disk := fun p =>
  match p with
  | [] | [_] => Some Folder
  | [f; h] =>
      if beq h (key "srv") then
        if beq f (key "config.toml") then Some (File (server_text ToyToml ins_doc))
        else if beq f (key "sign.priv") then Some (File (k64 x11))
        else if beq f (key "vrf.priv") then Some (File (k64 x12))
        else if beq f (key "sign.pub") then Some (File (@sign_pub ToyCrypto (k64 x11)))
        else if beq f (key "server.pem") || beq f (key "server.key") then Some (File [x01])
        else None
      else if beq h (key "me") && beq f (key "config.toml") then Some (File (client_text ToyToml ins_cdoc)) else None
  | _ => None
  end.
Definition ins_run : disk * started :=
  @run_server ToyCrypto ToyToml Fine (fun _ => true) [key "srv"] ins_disk (key "config.toml") (Some [x01]) (Some [x02]).
Definition ins_host (h : bytes) : bool := beq h (key "127.0.0.1:3000").
(** Started, loaded, and the screen of a session of six events. *)
Definition ins_screen : list shown :=
  match ins_run with
  | (d', Serving p) =>
      match ClientLoad ToyToml [key "me"] d' (key "config.toml") (key "toml") with
      | Ok (Some conf) =>
          match repl_start conf true with
          | Ok st => match @session ToyCrypto ins_host (sv_perms (pr_server p)) (fun _ => 0) conf (sv_dir (pr_server p)) st repl_events with
                     | Ok (_, _, sh) => sh
                     | Panic => [] end
          | Panic => [] end
      | _ => [] end
  | _ => [] end.
Lemma ins_screen_is : ins_screen =
  [(true, key "[+] Name isn't registered."); (true, key "[+] Succesfully registered name: a");
   (true, key "[+] Name is already registered.");
   (true, key "[+] Are you trying to update your binding? Unfortunately, KeyChange isn't supported yet.");
   (true, key "[+] Found! Key bound to name is: []")].
Proof. vm_compute. reflexivity. Qed.
(** The hypotheses of [C86_install_to_screen] hold for it. *)
Lemma ins_serves : match ins_run with (_, Serving _) => true | _ => false end = true.
Proof. vm_compute. reflexivity. Qed.
Lemma ins_kept : match ins_run with (d', _) => match d' [key "config.toml"; key "me"], d' [key "sign.pub"; key "srv"] with
  | Some (File t), Some (File k) => beq t (client_text ToyToml ins_cdoc) && beq k (@sign_pub ToyCrypto (k64 x11)) | _, _ => false end end = true.
Proof. vm_compute. reflexivity. Qed.
Example C86_nonvacuous : exists d' p, ins_run = (d', Serving p) /\
  (forall sk, length (@sign_pub ToyCrypto sk) = 32) /\
  content ins_disk (locate [key "srv"] (key "config.toml")) = Some (server_text ToyToml ins_doc) /\
  server_parse ToyToml (server_text ToyToml ins_doc) = Some ins_doc /\
  str_place [key "srv"] (key "config.toml") ins_doc = [key "init.str"; key "srv"] /\
  ins_disk (str_place [key "srv"] (key "config.toml") ins_doc) = None /\
  client_of ToyToml d' [key "me"] (key "config.toml") ins_cdoc (@sign_pub ToyCrypto (k64 x11)) [key "init.str"; key "srv"] /\
  usable ins_host (cd_addr ins_cdoc) = Ok true /\ usable ins_host (reg_of ins_cdoc) = Ok true /\
  takes_registrations ins_doc 0 /\ takes_lookups ins_doc 0 /\
  Forall2 spelled repl_cmds repl_events /\ no_missed_epoch 0 repl_cmds /\ Forall wf_command repl_cmds.
Proof.
  pose proof ins_serves as S0. pose proof ins_kept as K0.
  destruct ins_run as [d' [| | |p]]; try discriminate S0. exists d', p. split; [reflexivity|]. clear S0.
  split; [intro sk; cbn [sign_pub ToyCrypto]; apply (ok_shake_len ToyCrypto ToyCrypto_ok)|].
  split; [vm_compute; reflexivity|]. split; [vm_compute; reflexivity|]. split; [vm_compute; reflexivity|]. split; [vm_compute; reflexivity|].
  split.
  { assert (P : client_parse ToyToml (client_text ToyToml ins_cdoc) = Some ins_cdoc) by (vm_compute; reflexivity).
    assert (L1 : locate [key "me"] (key "config.toml") = [key "config.toml"; key "me"]) by (vm_compute; reflexivity).
    assert (L2 : beside [key "me"] (key "config.toml") (cd_pub ins_cdoc) = [key "sign.pub"; key "srv"]) by (vm_compute; reflexivity).
    unfold client_of. rewrite L1, L2. unfold content.
    destruct (d' [key "config.toml"; key "me"]) as [[t|]|]; [|discriminate K0|discriminate K0].
    destruct (d' [key "sign.pub"; key "srv"]) as [[k|]|]; [|discriminate K0|discriminate K0].
    apply andb_prop in K0 as (K1 & K2). apply beq_eq in K1, K2. subst t k.
    split; [exists (client_text ToyToml ins_cdoc); split; [reflexivity|exact P]|]. split; [reflexivity|vm_compute; reflexivity]. }
  split; [vm_compute; reflexivity|]. split; [vm_compute; reflexivity|].
  split; [eexists; split; reflexivity|]. split; [discriminate|].
  split; [exact repl_spelled|]. split; [cbn; auto|].
  repeat (apply Forall_cons || apply Forall_nil); try exact I; repeat split; try discriminate; apply u_1; try reflexivity; constructor.
Qed.
