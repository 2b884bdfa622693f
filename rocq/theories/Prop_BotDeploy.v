(** C79: setting up the registration proxy, how it meets the key server, and
    registrations through it from end to end. *)
From Coq Require Import List NArith ZArith Lia Bool Arith.
From Coq Require Import String.
From Verif Require Import Base Utils Crypto Tree STR PAD PADSpec Protocol Directory DirSpec DirFacts PADMain DirMain Prop_Directory
  Path Json JsonText Wire Text TextFacts Conc Server ServerFacts ServerWire Prop_Server Prop_Text Bot Prop_Bot Deploy DeployFacts Prop_Deploy BotDeploy.
Import ListNotations.
Local Open Scope list_scope.
Local Open Scope nat_scope.
Notation length := List.length.

Local Ltac names := apply name_ok_is; reflexivity.

(** ** The configuration file *)

(** [coniksbot init] never touches an existing file, writes no other file, and
    when it succeeds the file says what the defaults are. *)
Theorem C79_bot_init : forall B o cwd dir d d' ret, bot_init B o cwd dir d = (d', ret) ->
  let place := key "botconfig.toml" :: locate cwd dir in
  (forall q n, d q = Some n -> d' q = Some n) /\ (forall q, q <> place -> d' q = d q) /\
  (ret = Some true -> d place = None /\ d' place = Some (File (bot_text B (bot_default (Join dir (key "botconfig.toml")))))).
Proof.
  intros B o cwd dir d d' ret W pl. unfold bot_init in W.
  destruct (locate_Join cwd dir (key "botconfig.toml") ltac:(names)) as (L & _).
  split; [intros q n; eapply write_keeps; exact W|]. split.
  - intros q N. eapply write_only; [exact W|]. rewrite L. exact N.
  - intros ->. destruct (write_done _ _ _ _ _ _ W) as (A & D). rewrite L in A, D. split; [exact A|exact D].
Qed.
Print Assumptions C79_bot_init.

(** The defaults can be written and read back. *)
Lemma bot_default_plain file : utf8 file -> bot_plain (bot_default file).
Proof.
  intro U. unfold bot_plain, bot_default. cbn [bd_path bd_enc bd_addr bd_oauth bd_handle outf8 List.length].
  split; [exact U|]. split; [apply key_utf8; reflexivity|]. split; [apply key_utf8; reflexivity|]. split; [reflexivity|].
  split; [repeat constructor; apply key_utf8; reflexivity|apply key_utf8; reflexivity].
Qed.
(** A file made by [coniksbot init] with the argument [dir]. *)
Definition bot_file (B : BotToml) (d : disk) (p : place) (dir : bytes) : Prop :=
  content d p = Some (bot_text B (bot_default (Join dir (key "botconfig.toml")))).
Theorem C79_init_then_load : forall B, BotTomlOk B -> forall dir d cwd file,
  utf8 (Join dir (key "botconfig.toml")) -> bot_file B d (locate cwd file) dir ->
  BotLoad B cwd d file = Some (bot_default (Join dir (key "botconfig.toml"))).
Proof.
  intros B OK dir d cwd file U F. unfold BotLoad, ReadFile. unfold bot_file, content in F. rewrite F. cbn [obind].
  apply OK, bot_default_plain, U.
Qed.
Print Assumptions C79_init_then_load.

(** ** Starting the proxy *)

(** There is something, of whatever kind, at the place. *)
Definition something (d : disk) (socks : sockets) (p : place) : Prop :=
  d p <> None \/ exists i, In (p, i) socks.
Lemma who_none socks p : who_listens socks p = None <-> forall i, ~ In (p, i) socks.
Proof.
  unfold who_listens. split.
  - intros H i I. destruct (find _ socks) as [x|] eqn:F; [discriminate H|].
    pose proof (find_none _ _ F _ I) as E. cbn [fst] in E. rewrite place_eqb_refl in E. discriminate E.
  - intro H. destruct (find _ socks) as [[q i]|] eqn:F; [|reflexivity].
    apply find_some in F as (I & E). cbn [fst] in E. apply place_eqb_eq in E. subst q. destruct (H i I).
Qed.
Lemma not_exist_iff cwd d socks path : not_exist cwd d socks path = false <-> path <> [] /\ something d socks (locate cwd path).
Proof.
  unfold not_exist, something. destruct path as [|c path]; cbn [empty]; [split; [discriminate|intros [X _]; congruence]|].
  destruct (d (locate cwd (c :: path))) as [n|] eqn:E.
  - split; [intros _; split; [discriminate|left; discriminate]|reflexivity].
  - destruct (who_listens socks (locate cwd (c :: path))) as [i|] eqn:W.
    + split; [intros _|reflexivity]. split; [discriminate|]. right. unfold who_listens in W.
      destruct (find _ socks) as [[q j]|] eqn:F; [|discriminate W]. apply find_some in F as (I & Q). cbn [fst] in Q. apply place_eqb_eq in Q. subst q. eauto.
    + split; [discriminate|]. intros [_ [X|(i & I)]]; [congruence|]. rewrite who_none in W. destruct (W i I).
Qed.

(** The proxy starts exactly when its configuration can be read, there is
    something at the place it takes for the server's socket, and the account
    the secrets belong to has, letter by letter, the configured handle. *)
Theorem C79_starts_iff : forall B cwd d socks account file b,
  bot_run B cwd d socks account file = BRunning b <->
  exists text doc, content d (locate cwd file) = Some text /\ bot_parse B text = Some doc /\
    bd_addr doc <> [] /\ something d socks (locate cwd (bd_addr doc)) /\
    account (bd_oauth doc) = Some (bd_handle doc) /\ b = mkTwitterBot cwd (bd_addr doc) (bd_handle doc).
Proof.
  intros B cwd d socks account file b. unfold bot_run, BotLoad, ReadFile. fold (content d (locate cwd file)).
  destruct (content d (locate cwd file)) as [text|]; cbn [obind].
  2:{ split; [discriminate|]. intros (text & doc & X & _). discriminate X. }
  destruct (bot_parse B text) as [doc|] eqn:P.
  2:{ split; [discriminate|]. intros (t & doc & X & Y & _). injection X as <-. congruence. }
  assert (K : (exists t d0, Some text = Some t /\ bot_parse B t = Some d0 /\ bd_addr d0 <> [] /\ something d socks (locate cwd (bd_addr d0)) /\
     account (bd_oauth d0) = Some (bd_handle d0) /\ b = mkTwitterBot cwd (bd_addr d0) (bd_handle d0)) <->
    (bd_addr doc <> [] /\ something d socks (locate cwd (bd_addr doc)) /\ account (bd_oauth doc) = Some (bd_handle doc) /\ b = mkTwitterBot cwd (bd_addr doc) (bd_handle doc))).
  { split; [intros (t & d0 & X & Y & Z); injection X as <-; assert (d0 = doc) by congruence; subst d0; exact Z|].
    intro Z. exists text, doc. auto. }
  rewrite K. clear K. unfold NewTwitterBot. destruct (not_exist cwd d socks (bd_addr doc)) eqn:NE.
  { split; [discriminate|]. intros (X & Y & _). assert (F : not_exist cwd d socks (bd_addr doc) = false) by (apply not_exist_iff; auto). congruence. }
  apply not_exist_iff in NE as (N1 & N2). destruct (account (bd_oauth doc)) as [name|].
  2:{ split; [discriminate|]. intros (_ & _ & X & _). discriminate X. }
  destruct (beq_spec name (bd_handle doc)) as [->|N].
  - split; [intro X; injection X as <-; auto|]. intros (_ & _ & _ & ->). reflexivity.
  - split; [discriminate|]. intros (_ & _ & X & _). congruence.
Qed.
Print Assumptions C79_starts_iff.

(** Two consequences that are not what the documentation says.  Handles are
    the same on Twitter up to case, but a configuration with another spelling
    is refused ("Could not authenticate you") ... *)
Theorem C79_handle_case_refuted : forall B, BotTomlOk B -> exists doc name, bot_plain doc /\
  map lower name = map lower (bd_handle doc) /\
  forall cwd d socks file, content d (locate cwd file) = Some (bot_text B doc) ->
    bot_run B cwd d socks (fun _ => Some name) file = BPanic.
Proof.
  intros B OK. exists (bot_default (key "x")), (key "conikstormess").
  assert (PL : bot_plain (bot_default (key "x"))) by (apply bot_default_plain, key_utf8; reflexivity).
  split; [exact PL|]. split; [reflexivity|]. intros cwd d socks file F.
  unfold bot_run, BotLoad, ReadFile. fold (content d (locate cwd file)). rewrite F. cbn [obind]. rewrite (OK _ PL).
  unfold NewTwitterBot. destruct (not_exist _ _ _ _); reflexivity.
Qed.
Print Assumptions C79_handle_case_refuted.
(** ... and the check that "the CONIKS key server is live" is none: with an
    ordinary file (or what a dead server left) at that place the proxy starts,
    and then answers every proper request with an error, changing nothing. *)
Theorem C79_liveness_refuted : forall (C : Crypto) B, BotTomlOk B ->
  forall dir d cwd file account, utf8 (Join dir (key "botconfig.toml")) -> bot_file B d (locate cwd file) dir ->
  d [key "coniks.sock"; key "tmp"] = Some (File []) ->
  account [key "secret"; key "secret"; key "secret"; key "secret"] = Some (key "ConiksTorMess") ->
  exists b, bot_run B cwd d [] account file = BRunning b /\
  forall p sender msg r dr, request_ok sender msg = true -> ~ folds sender (key "ConiksTorMess") ->
    direct_message p [] b sender (messagePrefix ++ msg) r dr =
      Ok (dr, [(sender, messagePrefix ++ json_text (MarshalResponse (NewErrorResponse ErrDirectory)))]).
Proof.
  intros C B OK dir d cwd file account U F S A.
  exists (mkTwitterBot cwd (key "/tmp/coniks.sock") (key "ConiksTorMess")). split.
  - apply C79_starts_iff. exists (bot_text B (bot_default (Join dir (key "botconfig.toml")))), (bot_default (Join dir (key "botconfig.toml"))).
    split; [exact F|]. split; [apply OK, bot_default_plain, U|]. cbn [bd_addr bot_default bd_oauth bd_handle].
    split; [discriminate|]. split; [left|auto].
    change (locate cwd (key "/tmp/coniks.sock")) with [key "coniks.sock"; key "tmp"]. rewrite S. discriminate.
  - intros p sender msg r dr RO NF. unfold direct_message. cbn [tb_handle]. unfold handle_dm.
    destruct (EqualFold sender (key "ConiksTorMess")) eqn:E; [destruct NF; apply EqualFold_spec; exact E|].
    assert (SP : strip_prefix messagePrefix (messagePrefix ++ msg) = Some msg) by reflexivity. rewrite SP.
    unfold HandleRegistration. rewrite RO. change (reaches (mkTwitterBot cwd (key "/tmp/coniks.sock") (key "ConiksTorMess")) []) with (@None nat).
    cbv iota beta. reflexivity.
Qed.
Print Assumptions C79_liveness_refuted.

(** ** Meeting at a socket *)

(** Characters a path may contain for both sides to mean the same by it. *)
Definition plain_path (p : bytes) : Prop := forall c, In c p -> c <> x23 /\ c <> x3f /\ c <> x25 /\ is_ctl c = false.

Lemma before_id c s : ~ In c s -> before c s = s.
Proof.
  induction s as [|b s IH]; intro H; [reflexivity|]. cbn [before].
  destruct (byte_eqb b c) eqn:E; [apply byte_eqb_eq in E; subst; destruct H; left; reflexivity|].
  rewrite IH; [reflexivity|]. intro K. apply H. right. exact K.
Qed.
Lemma before_len c s : length (before c s) <= length s /\ (length (before c s) = length s -> ~ In c s).
Proof.
  induction s as [|b s (A & B)]; cbn [before]; [split; [auto|intros _ []]|]. destruct (byte_eqb b c) eqn:E; cbn [length].
  - split; [lia|discriminate].
  - split; [lia|]. intros L [->|K]; [rewrite (proj2 (byte_eqb_eq c c) eq_refl) in E; discriminate E|]. apply B; [lia|exact K].
Qed.
Lemma before_app c a s : ~ In c a -> before c (a ++ s) = a ++ before c s.
Proof.
  induction a as [|b a IH]; intro H; [reflexivity|]. cbn [app before].
  destruct (byte_eqb b c) eqn:E; [apply byte_eqb_eq in E; subst; destruct H; left; reflexivity|].
  rewrite IH; [reflexivity|]. intro K. apply H. right. exact K.
Qed.
Lemma after_none c s : ~ In c s -> after c s = [].
Proof.
  induction s as [|b s IH]; intro H; [reflexivity|]. cbn [after].
  destruct (byte_eqb b c) eqn:E; [apply byte_eqb_eq in E; subst; destruct H; left; reflexivity|].
  apply IH. intro K. apply H. right. exact K.
Qed.
Lemma unescape_id s : ~ In x25 s -> unescape s = Some s.
Proof.
  induction s as [|b s IH]; intro H; [reflexivity|]. cbn [unescape].
  destruct (byte_eqb b x25) eqn:E; [apply byte_eqb_eq in E; subst; destruct H; left; reflexivity|].
  rewrite IH; [reflexivity|]. intro K. apply H. right. exact K.
Qed.
Lemma unescape_len : forall n s t, length s <= n -> unescape s = Some t -> length t <= length s /\ (length t = length s -> ~ In x25 s).
Proof.
  induction n as [|n IH]; intros s t L H.
  - destruct s; [|cbn [length] in L; lia]. injection H as <-. split; [auto|intros _ []].
  - destruct s as [|c s]; [injection H as <-; split; [auto|intros _ []]|]. cbn [unescape] in H. cbn [length] in L.
    destruct (byte_eqb c x25) eqn:E.
    + destruct s as [|a [|b s]]; try discriminate H. destruct (hexval a), (hexval b); try discriminate H.
      destruct (unescape s) as [t'|] eqn:U; [|discriminate H]. injection H as <-. cbn [length] in *.
      destruct (IH s t') as (X & _); [lia|exact U|]. split; lia.
    + destruct (unescape s) as [t'|] eqn:U; [|discriminate H]. injection H as <-. cbn [length].
      destruct (IH s t') as (X & Y); [lia|exact U|]. split; [lia|]. intros L' [K|K].
      * subst c. discriminate E.
      * apply Y; [lia|exact K].
Qed.

Lemma ctl_none s : existsb is_ctl s = false <-> forall c, In c s -> is_ctl c = false.
Proof.
  induction s as [|b s IH]; cbn [existsb]; [split; [intros _ c []|reflexivity]|].
  rewrite orb_false_iff, IH. split.
  - intros (A & B) c [<-|K]; auto.
  - intro H. split; [apply H; left; reflexivity|intros c K; apply H; right; exact K].
Qed.

(** What the server makes of its address: the text after "unix://", cut at the
    first '#' and at the first '?', with escapes decoded ... *)
Lemma url_abs host p : IsAbs p = true ->
  url_path host (key "unix://" ++ p) =
    match unescape (after x23 p) with
    | None => None
    | Some _ => if existsb is_ctl (before x23 p) then None else unescape (before x3f (before x23 p))
    end.
Proof.
  intro A. destruct p as [|c p]; [discriminate A|]. cbn [IsAbs] in A. apply byte_eqb_eq in A. subst c.
  unfold url_path. change (after x23 (key "unix://" ++ slash :: p)) with (after x23 (slash :: p)).
  destruct (unescape (after x23 (slash :: p))); [|reflexivity].
  change (before x23 (key "unix://" ++ slash :: p)) with (key "unix://" ++ slash :: before x23 p).
  change (before x23 (slash :: p)) with (slash :: before x23 p).
  change (existsb is_ctl (key "unix://" ++ slash :: before x23 p)) with (existsb is_ctl (slash :: before x23 p)).
  destruct (existsb is_ctl (slash :: before x23 p)); [reflexivity|].
  change (after x3a (key "unix://" ++ slash :: before x23 p)) with (slash :: slash :: slash :: before x23 p).
  change (before x3f (slash :: slash :: slash :: before x23 p)) with (slash :: slash :: slash :: before x3f (before x23 p)).
  change (before x3f (slash :: before x23 p)) with (slash :: before x3f (before x23 p)).
  cbv beta zeta iota. change (byte_eqb slash slash) with true. cbv iota. reflexivity.
Qed.
(** ... provided it begins with a slash; otherwise the text up to the first
    slash is taken for a host and dropped. *)
Lemma from_slash s : from slash s = [] \/ exists t, from slash s = slash :: t.
Proof.
  induction s as [|b s IH]; cbn [from]; [auto|]. destruct (byte_eqb b slash) eqn:E; [|exact IH]. apply byte_eqb_eq in E. subst. eauto.
Qed.
Lemma url_host host p q : p <> [] -> IsAbs p = false -> url_path host (key "unix://" ++ p) = Some q -> q = [] \/ IsAbs q = true.
Proof.
  intros NE A. destruct p as [|c p]; [congruence|]. cbn [IsAbs] in A.
  unfold url_path. change (after x23 (key "unix://" ++ c :: p)) with (after x23 (c :: p)).
  destruct (unescape (after x23 (c :: p))); [|discriminate].
  change (before x23 (key "unix://" ++ c :: p)) with (key "unix://" ++ before x23 (c :: p)).
  set (r := before x23 (c :: p)). destruct (existsb is_ctl (key "unix://" ++ r)); [discriminate|].
  change (after x3a (key "unix://" ++ r)) with (slash :: slash :: r).
  change (before x3f (slash :: slash :: r)) with (slash :: slash :: before x3f r). cbv beta zeta iota. change (byte_eqb slash slash) with true. cbv iota.
  destruct (empty (before slash (before x3f r)) || host (before slash (before x3f r))); [|discriminate].
  destruct (from_slash (before x3f r)) as [-> | (t & ->)]; [intro H; injection H as <-; auto|]. cbn [unescape]. change (byte_eqb slash x25) with false. cbv iota.
  destruct (unescape t) as [u|]; [|discriminate]. intro H; injection H as <-. right. reflexivity.
Qed.

(** So a server configured with "unix://" followed by [p] and a proxy (whose
    configuration has the bare path) configured with [p] mean the same socket
    exactly when [p] is absolute and free of '#', '?', '%' and control
    characters. *)
Theorem C79_same_socket_iff : forall host p, p <> [] ->
  (url_path host (key "unix://" ++ p) = Some p <-> IsAbs p = true /\ plain_path p).
Proof.
  intros host p NE. destruct (IsAbs p) eqn:A.
  - rewrite (url_abs host p A). split.
    + intro H. split; [reflexivity|]. destruct (unescape (after x23 p)); [|discriminate H].
      destruct (existsb is_ctl (before x23 p)) eqn:CT; [discriminate H|].
      destruct (unescape_len _ _ _ (le_n _) H) as (L1 & E1).
      destruct (before_len x3f (before x23 p)) as (L2 & E2). destruct (before_len x23 p) as (L3 & E3).
      assert (N3 : ~ In x23 p) by (apply E3; lia). rewrite (before_id x23 p N3) in *.
      assert (N2 : ~ In x3f p) by (apply E2; lia). rewrite (before_id x3f p N2) in *.
      assert (N1 : ~ In x25 p) by (apply E1; lia). rewrite ctl_none in CT.
      intros c I. split; [intros ->; auto|]. split; [intros ->; auto|]. split; [intros ->; auto|]. apply CT. exact I.
    + intros (_ & PL). assert (N3 : ~ In x23 p) by (intro I; destruct (PL _ I) as (X & _); congruence).
      assert (N2 : ~ In x3f p) by (intro I; destruct (PL _ I) as (_ & X & _); congruence).
      assert (N1 : ~ In x25 p) by (intro I; destruct (PL _ I) as (_ & _ & X & _); congruence).
      rewrite (after_none x23 p N3), (before_id x23 p N3), (before_id x3f p N2), (unescape_id p N1).
      cbn [unescape]. assert (CT : existsb is_ctl p = false) by (apply ctl_none; intros c I; apply PL; exact I). rewrite CT. reflexivity.
  - split; [|intros (X & _); discriminate X]. intro H. destruct (url_host _ _ _ NE A H) as [X|X]; congruence.
Qed.
Print Assumptions C79_same_socket_iff.
(** Two server addresses that start a server nobody finds there: an escape,
    and a relative path. *)
Theorem C79_other_socket_refuted : forall host,
  url_path host (key "unix:///run/a%20b") = Some (key "/run/a b") /\
  (host (key "run") = true -> url_path host (key "unix://run/coniks.sock") = Some (key "/coniks.sock")) /\
  url_path host (key "unix:run/coniks.sock") = Some [].
Proof.
  intro host. split; [reflexivity|]. split; [|reflexivity]. intro H.
  change (url_path host (key "unix://run/coniks.sock")) with (if empty (key "run") || host (key "run") then Some (key "/coniks.sock") else None).
  rewrite H. reflexivity.
Qed.
Print Assumptions C79_other_socket_refuted.

(** ** The default deployment *)

(** A started server: its permissions are those of the configuration it
    loaded. *)
Lemma serving_loaded (C : Crypto) T o net cwd d file r1 r2 d' p : run_server T o net cwd d file r1 r2 = (d', Serving p) ->
  exists c, Load T cwd d file (key "toml") = Ok (Some c) /\ sv_perms (pr_server p) = permissions (addresses (ld_conns c)).
Proof.
  unfold run_server. destruct (Load T cwd d file (key "toml")) as [[c|]|]; [|discriminate|discriminate].
  destruct (StartServer o cwd d c r1 r2) as [[d2 [p2|]]|] eqn:S; [|discriminate|discriminate].
  destruct (Run net cwd d2 (ld_conns c)); [|discriminate]. intro H; injection H as <- <-.
  exists c. split; [reflexivity|]. unfold StartServer in S.
  destruct (NewLogger cwd d (ld_logger c)) as [d1|]; [|discriminate S]. cbn [bind] in S.
  destruct (NewConiksServer (to_config c) [] (fun _ => None) r1 r2) as [[sv f]|] eqn:N; [|discriminate S]. cbn [bind] in S.
  destruct (WriteFile _ _ _ _ _) as [d3 ret]. destruct ret; [|discriminate S]. injection S as _ <-. cbn [pr_server].
  unfold NewConiksServer in N. destruct (Directory_New _ _ _ _ _ _ _) as [dd|]; [|discriminate N]. cbn [bind] in N. injection N as <- _.
  reflexivity.
Qed.

(** A server made by [coniksserver init] and [run], and a proxy made by
    [coniksbot init] and [run], wherever both are: the proxy reaches the
    server, on the only address on which it accepts registrations. *)
Theorem C79_default_meeting : forall (C : Crypto) T, TomlOk T -> forall B, BotTomlOk B ->
  forall host a sk vk d cwd file net r1 r2 d0,
  deployed T a sk vk d -> length sk = 64 -> length vk = 64 -> utf8 (Join (in_dir a) (key "config.toml")) ->
  locate cwd file = key "config.toml" :: home a -> locate_dir cwd file = home a ->
  d (log_name :: home a) <> Some Folder -> tls_files d (home a) ->
  net (key "unix:///tmp/coniks.sock") = true -> net (key "tcp://0.0.0.0:3000") = true ->
  Directory_New 60 vk sk (N.to_nat 1000000) true r1 r2 = Ok d0 ->
  exists d' p c, run_server T Fine net cwd d file r1 r2 = (d', Serving p) /\ sv_dir (pr_server p) = d0 /\
    Load T cwd d file (key "toml") = Ok (Some c) /\
    (forall i, sv_perms (pr_server p) i RegistrationType = true <-> i = 0) /\
  forall bcwd bdir bfile d2 account, utf8 (Join bdir (key "botconfig.toml")) -> bot_file B d2 (locate bcwd bfile) bdir ->
    account [key "secret"; key "secret"; key "secret"; key "secret"] = Some (key "ConiksTorMess") ->
    exists b, bot_run B bcwd d2 (listening host cwd 0 (ld_conns c)) account bfile = BRunning b /\
      tb_handle b = key "ConiksTorMess" /\ reaches b (listening host cwd 0 (ld_conns c)) = Some 0.
Proof.
  intros C T TO B BO host a sk vk d cwd file net r1 r2 d0 DE LS LV U L LD LG TL N1 N2 ND.
  destruct (C71_start C T TO a sk vk d cwd file net r1 r2 d0 DE LS LV U L LD LG N1 N2 ND) as (d' & p & R & _ & SV & _).
  specialize (R TL). destruct (serving_loaded C _ _ _ _ _ _ _ _ _ _ R) as (c & EL & PE).
  destruct DE as (D0 & D1 & D2 & D3 & D4).
  destruct (load_default T cwd d file (key "toml") (Join (in_dir a) (key "config.toml")) sk vk TO U) as (c' & EL' & DL);
    [unfold content; rewrite L, D1; reflexivity|unfold content; rewrite LD, D2; reflexivity|exact LS|unfold content; rewrite LD, D4; reflexivity|exact LV|].
  assert (c' = c) by congruence. subst c'. destruct DL as (_ & _ & _ & _ & _ & _ & _ & D8).
  exists d', p, c. split; [exact R|]. split; [exact SV|]. split; [exact EL|].
  assert (LI : listening host cwd 0 (ld_conns c) = [([key "coniks.sock"; key "tmp"], 0)]).
  { rewrite D8. cbn [listening cn_addr]. change (scheme (key "unix:///tmp/coniks.sock")) with (Some (key "unix")).
    change (scheme (key "tcp://0.0.0.0:3000")) with (Some (key "tcp")). cbv iota.
    change (beq (key "unix") (key "unix")) with true. change (beq (key "tcp") (key "unix")) with false. cbv iota.
    change (url_path host (key "unix:///tmp/coniks.sock")) with (Some (key "/tmp/coniks.sock")). reflexivity. }
  split.
  { intro i. rewrite PE, D8. unfold addresses. cbn [combine seq length map fst snd]. unfold permissions. cbn [fold_left]. unfold perm_step. cbn [ad_ptr ad_allow].
    change (Z.eqb RegistrationType KeyLookupType || Z.eqb RegistrationType KeyLookupInEpochType || Z.eqb RegistrationType MonitoringType) with false.
    change (Z.eqb RegistrationType RegistrationType) with true. cbv iota.
    destruct i as [|[|i]]; cbn [Nat.eqb]; split; congruence. }
  intros bcwd bdir bfile d2 account UB F A. rewrite LI.
  exists (mkTwitterBot bcwd (key "/tmp/coniks.sock") (key "ConiksTorMess")). split; [|split; reflexivity].
  apply C79_starts_iff. exists (bot_text B (bot_default (Join bdir (key "botconfig.toml")))), (bot_default (Join bdir (key "botconfig.toml"))).
  split; [exact F|]. split; [apply BO, bot_default_plain, UB|]. cbn [bd_addr bot_default bd_oauth bd_handle].
  split; [discriminate|]. split; [right; exists 0; left; reflexivity|auto].
Qed.
Print Assumptions C79_default_meeting.

(** ** Registrations through the proxy *)

Lemma ascii_utf8 s : ascii s -> utf8 s.
Proof.
  induction s as [|c s IH]; intro As; [constructor|]. apply ascii_cons in As as [A1 A2]. apply u_1; auto.
  unfold in_rng. apply andb_true_iff. rewrite !N.leb_le. lia.
Qed.
(** A user asks the proxy, by a direct message with the text the client makes,
    to register its own name; what the directory does is exactly what
    [Register] does with that name and key, and the user gets the server's
    answer (up to 8192 bytes). *)
Theorem C79_registration : forall (C : Crypto) p socks b i d r sender k d' resp,
  reaches b socks = Some i -> p i RegistrationType = true ->
  ascii sender -> ~ folds sender (tb_handle b) ->
  length (json_text (CreateRegistrationMsg (name1 sender) k)) <= 8192 ->
  Register d r (name1 sender) k = Ok (d', resp) ->
  direct_message p socks b sender (messagePrefix ++ json_text (CreateRegistrationMsg (name1 sender) k)) r d =
    Ok (d', [(sender, messagePrefix ++ firstn limit (response_text resp))]).
Proof.
  intros C p socks b i d r sender k d' resp RE PE AS NH LE RG.
  set (n := name1 sender) in *. set (msg := json_text (CreateRegistrationMsg n k)) in *.
  assert (UN : utf8_coerce n = n) by (apply utf8_coerce_id, ascii_utf8, ascii_account, AS).
  assert (ME : obind (received msg) UnmarshalRequest = Some (mkReq RegistrationType (WRegistration n k false false))).
  { destruct (C65_client_messages n k) as (A & _). specialize (A LE). rewrite UN in A. exact A. }
  assert (RO : request_ok sender msg = true).
  { assert (PM : obind (json_parse msg) UnmarshalRequest = Some (mkReq RegistrationType (WRegistration n k false false))).
    { unfold msg. rewrite json_round_trip by (apply request_utf8; discriminate). cbn [obind]. rewrite registration_msg, UN. reflexivity. }
    unfold request_ok. rewrite PM. cbn [q_body q_type]. apply andb_true_iff. split; [reflexivity|]. apply EqualFold_spec. apply folds_refl. }
  assert (SV : serve p i msg r d = Ok (d', Some (response_text resp))).
  { unfold serve. cbn [srv_sem]. unfold accept. rewrite ME. unfold checkRequestType. cbn [q_type]. rewrite PE.
    unfold HandleRequests. cbn [q_type q_body]. change (Z.eqb RegistrationType RegistrationType) with true. cbv iota. rewrite RG. reflexivity. }
  unfold direct_message. unfold handle_dm.
  destruct (EqualFold sender (tb_handle b)) eqn:E; [destruct NH; apply EqualFold_spec; exact E|].
  assert (SP : strip_prefix messagePrefix (messagePrefix ++ msg) = Some msg) by reflexivity. rewrite SP.
  unfold HandleRegistration. rewrite RO, RE. cbv iota beta. rewrite SV. cbv iota beta. rewrite SV. cbn [bind]. reflexivity.
Qed.
Print Assumptions C79_registration.

(** ... and for a new name in a directory in use, with a tree that is not too
    deep and keys that are not too long, the user can read it: a promise that
    the key will be in the next epoch. *)
Theorem C79_registration_succeeds : forall (C : Crypto), CryptoOk C ->
  forall dl0 vk sk size r1 r2 ops d, dir_built dl0 vk sk size r1 r2 ops d -> few ops -> deadlines_ok dl0 ops ->
  (forall m, length (snd (vrf_prove vk m)) <= 96) ->
  forall p socks b i r sender k,
  reaches b socks = Some i -> p i RegistrationType = true ->
  ascii sender -> ~ folds sender (tb_handle b) -> k <> [] ->
  length (json_text (CreateRegistrationMsg (name1 sender) k)) <= 8192 ->
  vrf_good vk (name1 sender :: names_of ops) -> reg ops (name1 sender) = None -> r <> None ->
  exists d' ap tb, let resp := NewRegistrationProof ap (LatestSTR d) (Some tb) ReqSuccess in
    direct_message p socks b sender (messagePrefix ++ json_text (CreateRegistrationMsg (name1 sender) k)) r d =
      Ok (d', [(sender, messagePrefix ++ firstn limit (response_text resp))]) /\
    dir_built dl0 vk sk size r1 r2 (ops ++ [DRegister r (name1 sender) k]) d' /\
    reg (ops ++ [DRegister r (name1 sender) k]) (name1 sender) = Some k /\
    tb_value tb = k /\
    (forall dep l, path_len resp <= dep -> keys_within l resp -> 130 * dep + 3 * l <= 6900 ->
       UnmarshalResponse RegistrationType (received (response_text resp)) = Ok resp).
Proof.
  intros C OK dl0 vk sk size r1 r2 ops d BU F DL VL p socks b i r sender k RE PE AS NH KN LE SP NR RN.
  assert (NN : name1 sender <> []) by (unfold name1, suffix; destruct (map lower sender); discriminate).
  destruct (C24_register C OK dl0 vk sk size r1 r2 ops d r (name1 sender) k BU F SP) as (d' & resp & RG & CASES).
  assert (N1 : is_nil (name1 sender) = false) by (destruct (name1 sender); [congruence|reflexivity]).
  assert (N2 : is_nil k = false) by (destruct k; [congruence|reflexivity]).
  rewrite N1, N2 in CASES. cbn [orb] in CASES. destruct CASES as (_ & CASE & _).
  destruct (CASE NR RN) as (ap & tb & ER & _ & _ & _ & TV & _). subst resp.
  exists d', ap, tb. cbv zeta. split; [eapply C79_registration; eauto|].
  split.
  { destruct BU as (d0 & D0 & DR). exists d0. split; [exact D0|]. rewrite dir_run_app, DR. cbn [bind dir_run dir_step]. rewrite RG. reflexivity. }
  split.
  { rewrite reg_app. cbn [fold_left reg_step]. destruct r as [rb|]; [|congruence]. rewrite N1, N2. cbn [orb].
    rewrite beq_refl, NR. reflexivity. }
  split; [exact TV|]. intros dep l PL KW SZ.
  apply (C66_usual_answers_read C OK dl0 vk sk size r1 r2 ops d BU F DL VL r (WRegistration (name1 sender) k false false) d' _) with (dep := dep) (k := l); auto.
  apply ascii_utf8, ascii_account, AS.
Qed.
Print Assumptions C79_registration_succeeds.

(** ** Nobody registers another account's name *)

Fixpoint ticks_of (l : list event) : nat :=
  match l with [] => 0 | Tick :: l' => S (ticks_of l') | _ :: l' => ticks_of l' end.
(** A direct message [text] from [sender] asks for [k] to be registered for
    the name [n], which is one of the sender's. *)
Definition asks (sender text n k : bytes) : Prop :=
  exists msg q u v, text = messagePrefix ++ msg /\ obind (json_parse msg) UnmarshalRequest = Some q /\
    q_body q = WRegistration n k u v /\ names_account n sender.

Lemma strip_text pre t x : strip_prefix pre t = Some x -> t = pre ++ x.
Proof.
  revert t. induction pre as [|a pre IH]; intros t S; cbn [strip_prefix] in S.
  - injection S as <-. reflexivity.
  - destruct t as [|c t]; [discriminate S|]. destruct (byte_eqb a c) eqn:E; [|discriminate S].
    apply byte_eqb_eq in E. subst. cbn [app]. f_equal. auto.
Qed.
Lemma serve_run (C : Crypto) p a msg r d d' ans : serve p a msg r d = Ok (d', ans) ->
  dir_run d (dir_calls p (OMsg a (received msg) r)) = Ok d'.
Proof.
  unfold serve. destruct (srv_sem p (OMsg a (received msg) r) d) as [[d1 resp]|] eqn:E; [|discriminate]. cbn [bind].
  intro H; injection H as <- _. eapply sem_calls; exact E.
Qed.
Lemma calls_silent p a msg r : p a RegistrationType = false -> dir_calls p (OMsg a msg r) = [].
Proof.
  intro P. cbn [dir_calls]. unfold accept. destruct (obind msg UnmarshalRequest) as [q|]; [|reflexivity].
  unfold checkRequestType. destruct (p a (q_type q)) eqn:E; [|reflexivity].
  destruct (Z.eqb_spec (q_type q) RegistrationType) as [X|X]; [rewrite X, P in E; discriminate E|reflexivity].
Qed.
Lemma calls_no_update p a msg r : dupdates (dir_calls p (OMsg a msg r)) = 0.
Proof.
  cbn [dir_calls]. destruct (accept p a msg) as [x|q]; [reflexivity|]. destruct (Z.eqb _ _); [|reflexivity]. destruct (q_body q); reflexivity.
Qed.

(** Whatever happens to a deployment, if the addresses that accept
    registrations are left to the proxy, then the directory's history
    contains only registrations that the owner of the name asked for. *)
Theorem C79_only_owners_register : forall (C : Crypto) p socks b events d0 d,
  (forall addr text r, In (Message addr text r) events -> p addr RegistrationType = false) ->
  happens p socks b d0 events = Ok d ->
  exists ops, dir_run d0 ops = Ok d /\ dupdates ops = ticks_of events /\
  forall r n k, In (DRegister r n k) ops -> exists sender text, In (DirectMessage sender text r) events /\ asks sender text n k.
Proof.
  intros C p socks b events. induction events as [|e l IH]; intros d0 d PM H; cbn [happens] in H.
  - injection H as <-. exists []. split; [reflexivity|]. split; [reflexivity|]. intros r n k [].
  - destruct (happen p socks b d0 e) as [d1|] eqn:E; [|discriminate H]. cbn [bind] in H.
    destruct (IH d1 d) as (ops & R & T & J); [intros; eapply PM; right; eauto|exact H|].
    assert (K : exists ops1, dir_run d0 ops1 = Ok d1 /\ dupdates ops1 + ticks_of l = ticks_of (e :: l) /\
      forall r n k, In (DRegister r n k) ops1 -> exists sender text, e = DirectMessage sender text r /\ asks sender text n k).
    { destruct e as [addr text r|sender text r| |dl]; cbn [happen] in E; cbn [ticks_of].
      - destruct (serve p addr text r d0) as [[d' ans]|] eqn:S; [|discriminate E]. cbn [bind] in E. injection E as <-.
        apply serve_run in S. rewrite (calls_silent p addr _ r) in S by (eapply PM; left; reflexivity).
        exists []. split; [exact S|]. split; [reflexivity|]. intros ? ? ? [].
      - unfold direct_message, handle_dm in E.
        destruct (EqualFold sender (tb_handle b)).
        { cbn [bind] in E. injection E as <-. exists []. split; [reflexivity|]. split; [reflexivity|]. intros ? ? ? []. }
        destruct (strip_prefix messagePrefix text) as [msg|] eqn:SP.
        2:{ cbn [bind] in E. injection E as <-. exists []. split; [reflexivity|]. split; [reflexivity|]. intros ? ? ? []. }
        apply strip_text in SP.
        match type of E with context [HandleRegistration ?f sender msg] =>
          destruct (C45_forwards_exactly_own_names f sender msg) as [(q & n & k & u & v & Q & Ty & B & N & EQ)|[_ EQ]] end;
          rewrite EQ in E; clear EQ.
        2:{ cbn [bind] in E. injection E as <-. exists []. split; [reflexivity|]. split; [reflexivity|]. intros ? ? ? []. }
        destruct (reaches b socks) as [a|].
        2:{ cbn [bind] in E. injection E as <-. exists []. split; [reflexivity|]. split; [reflexivity|]. intros ? ? ? []. }
        destruct (serve p a msg r d0) as [[d' ans]|] eqn:S; cbn [bind] in E; [|discriminate E]. injection E as <-.
        apply serve_run in S. eexists. split; [exact S|]. split; [rewrite calls_no_update; reflexivity|].
        intros r' n' k' I. cbn [dir_calls] in I. unfold accept in I.
        destruct (obind (received msg) UnmarshalRequest) as [q'|] eqn:Q'; [|destruct I].
        assert (q' = q) as -> by (eapply received_same; eauto).
        destruct (checkRequestType p a (q_type q)); [|destruct I]. rewrite Ty in I.
        change (Z.eqb RegistrationType RegistrationType) with true in I. cbn iota in I. rewrite B in I.
        destruct I as [I|[]]. injection I as <- <- <-. exists sender, text. split; [reflexivity|].
        exists msg, q, u, v. auto.
      - cbn [srv_sem bind] in E. injection E as <-. exists [DUpdate]. split; [reflexivity|]. split; [reflexivity|].
        intros ? ? ? [X|[]]. discriminate X.
      - destruct dl as [dl|]; cbn [srv_sem bind] in E; injection E as <-.
        + exists [DSetPolicies dl]. split; [reflexivity|]. split; [reflexivity|]. intros ? ? ? [X|[]]. discriminate X.
        + exists []. split; [reflexivity|]. split; [reflexivity|]. intros ? ? ? []. }
    destruct K as (ops1 & R1 & T1 & J1). exists (ops1 ++ ops). split; [rewrite dir_run_app, R1; exact R|].
    split; [rewrite dupdates_app, T; exact T1|]. intros r n k I. apply in_app_or in I as [I|I].
    + destruct (J1 _ _ _ I) as (sender & text & -> & A). exists sender, text. split; [left; reflexivity|exact A].
    + destruct (J _ _ _ I) as (sender & text & I' & A). exists sender, text. split; [right; exact I'|exact A].
Qed.
Print Assumptions C79_only_owners_register.

(** The names asked for in direct messages. *)
Definition text_names (text : bytes) : list bytes :=
  match obind (obind (strip_prefix messagePrefix text) json_parse) UnmarshalRequest with
  | Some q => match q_body q with WRegistration n _ _ _ => [n] | _ => [] end
  | None => []
  end.
Definition asked_names (l : list event) : list bytes :=
  flat_map (fun e => match e with DirectMessage _ text _ => text_names text | _ => [] end) l.
Lemma strip_app pre t : strip_prefix pre (pre ++ t) = Some t.
Proof. induction pre as [|a pre IH]; cbn [strip_prefix app]; [destruct t; reflexivity|]. rewrite (proj2 (byte_eqb_eq a a) eq_refl). exact IH. Qed.
Lemma asks_named sender text n k : asks sender text n k -> In n (text_names text).
Proof.
  intros (msg & q & u & v & -> & Q & B & _). unfold text_names. rewrite strip_app. cbn [obind]. rewrite Q, B. left. reflexivity.
Qed.

(** So, at any time in the life of a new deployment, every key that a lookup
    delivers (from the tree or as a promise) was asked for by the account the
    name belongs to. *)
Theorem C79_lookups_show_owners_keys : forall (C : Crypto), CryptoOk C ->
  forall vk sk dl size r1 r2 d0 p socks b events d name,
  Directory_New dl vk sk size true r1 r2 = Ok d0 ->
  (forall addr text r, In (Message addr text r) events -> p addr RegistrationType = false) ->
  happens p socks b d0 events = Ok d ->
  (N.of_nat (ticks_of events) < 2 ^ 64 - 1)%N -> vrf_good vk (name :: asked_names events) -> name <> [] ->
  exists ap v tb code, KeyLookup d name = Ok (NewKeyLookupProof ap (LatestSTR d) tb code) /\
    shows (vrf_pub vk) name ap v (tree_hash_of (LatestSTR d)) /\
    (code = ReqSuccess <-> v <> None \/ tb <> None) /\
    forall k, v = Some k \/ (exists t, tb = Some t /\ tb_value t = k) ->
      exists sender text r, In (DirectMessage sender text r) events /\ asks sender text name k.
Proof.
  intros C OK vk sk dl size r1 r2 d0 p socks b events d name ND PM H F SP NN.
  destruct (C79_only_owners_register C p socks b events d0 d PM H) as (ops & R & T & J).
  assert (BU : dir_built dl vk sk size r1 r2 ops d) by (exists d0; auto).
  assert (FE : few ops) by (unfold few; rewrite T; exact F).
  assert (IN : forall x, In x (names_of ops) -> In x (asked_names events)).
  { intros x I. unfold names_of in I. apply in_flat_map in I as (op & I & X). destruct op as [r n k| |]; cbn [op_names] in X; try (destruct X; fail).
    destruct X as [<-|[]]. destruct (J _ _ _ I) as (sender & text & I' & A). apply in_flat_map. exists (DirectMessage sender text r).
    split; [exact I'|]. eapply asks_named; exact A. }
  assert (SP' : vrf_good vk (name :: names_of ops)).
  { apply (vrf_good_incl vk _ _) with (2 := SP). intros x [<-|Ix]; cbn [In]; auto. }
  assert (RG : forall k, reg ops name = Some k -> exists sender text r, In (DirectMessage sender text r) events /\ asks sender text name k).
  { intros k E. assert (X : exists r, In (DRegister r name k) ops).
    { clear - E. revert E. rewrite <- (rev_involutive ops). generalize (rev ops). intro l. revert k. induction l as [|op l IH]; intros k; [discriminate|].
      cbn [rev]. rewrite reg_app. cbn [fold_left]. destruct op as [[rb|] n key| |]; cbn [reg_step].
      2,3,4: intro E; destruct (IH _ E) as (r & I); exists r; apply in_or_app; auto.
      destruct (is_nil n || is_nil key); [intro E; destruct (IH _ E) as (r & I); exists r; apply in_or_app; auto|].
      destruct (beq_spec name n) as [->|NE].
      - destruct (reg (rev l) n) as [k'|] eqn:E'; intro X; injection X as <-.
        + destruct (IH _ eq_refl) as (r & I). exists r. apply in_or_app; auto.
        + exists (Some rb). apply in_or_app. right. left. reflexivity.
      - intro E. destruct (IH _ E) as (r & I). exists r. apply in_or_app; auto. }
    destruct X as (r & I). destruct (J _ _ _ I) as (sender & text & I' & A). eauto. }
  destruct (C24_key_lookup C OK dl vk sk size r1 r2 ops d name BU FE SP' NN) as (ap & _ & SH & CASES).
  assert (VR : forall k, visible ops name = Some k -> reg ops name = Some k) by (intros k E; eapply reg_dupto; exact E).
  exists ap, (visible ops name).
  destruct (visible ops name) as [k|] eqn:V.
  - exists None, ReqSuccess. split; [exact CASES|]. split; [exact SH|]. split; [split; [left; discriminate|reflexivity]|].
    intros k' [X|(t & X & _)]; [|discriminate X]. injection X as <-. apply RG, VR. reflexivity.
  - destruct (reg ops name) as [k|] eqn:E.
    + destruct CASES as (tb & KL & _ & TV & _). exists (Some tb), ReqSuccess. split; [exact KL|]. split; [exact SH|].
      split; [split; [right; discriminate|reflexivity]|]. intros k' [X|(t & X & Y)]; [discriminate X|]. injection X as <-. rewrite TV in Y. subst k'.
      apply RG. reflexivity.
    + exists None, ReqNameNotFound. split; [exact CASES|]. split; [exact SH|]. split; [split; [discriminate|intros [X|X]; congruence]|].
      intros k' [X|(t & X & _)]; discriminate X.
Qed.
Print Assumptions C79_lookups_show_owners_keys.

(** ** Concrete cases *)
Definition toy_bot_text (x : BotDoc) : bytes :=
  t_opt t_str (bd_path x) (t_opt t_str (bd_enc x) (t_str (bd_addr x) (t_str (bd_handle x) (t_list t_str (bd_oauth x) [])))).
Definition toy_bot_parse (t : bytes) : option BotDoc :=
  andthen (r_opt r_s t) (fun a t => andthen (r_opt r_s t) (fun b t => andthen (r_s t) (fun c t => andthen (r_s t) (fun e t =>
  andthen (r_list r_s 5 t) (fun l t => Some (mkBotDoc a b c l e)))))).
Definition ToyBotToml : BotToml := mkBotToml toy_bot_text toy_bot_parse.
Lemma ToyBotToml_ok : BotTomlOk ToyBotToml.
Proof.
  intros x (_ & _ & _ & L & _). destruct x as [a b c l e]. cbn [bot_text bot_parse ToyBotToml]. unfold toy_bot_text, toy_bot_parse.
  cbn [bd_path bd_enc bd_addr bd_oauth bd_handle] in *.
  rewrite (r_opt_ok t_str r_s) by apply r_s_ok. cbn [andthen].
  rewrite (r_opt_ok t_str r_s) by apply r_s_ok. cbn [andthen].
  rewrite r_s_ok. cbn [andthen]. rewrite r_s_ok. cbn [andthen]. rewrite (r_list_ok t_str r_s r_s_ok) by lia. reflexivity.
Qed.

(** [coniksbot init] in an empty folder. *)
Example C79_init_case : exists d', bot_init ToyBotToml Fine [] (key "srv") ex_disk = (d', Some true) /\
  bot_file ToyBotToml d' (locate [key "x"] (key "../srv/botconfig.toml")) (key "srv") /\
  utf8 (Join (key "srv") (key "botconfig.toml")) /\
  exists b, bot_run ToyBotToml [key "srv"] d' [([key "coniks.sock"; key "tmp"], 0)] (fun _ => Some (key "ConiksTorMess")) (key "botconfig.toml") = BRunning b.
Proof.
  eexists. split; [reflexivity|]. split; [reflexivity|]. split; [apply key_utf8 with (s := "srv/botconfig.toml"%string); reflexivity|].
  eexists. vm_compute. reflexivity.
Qed.
Example C79_path_case : IsAbs (key "/tmp/coniks.sock") = true /\ plain_path (key "/tmp/coniks.sock") /\
  socket_at [key "x"] (key "../tmp/s") = Some [key "s"; key "tmp"].
Proof.
  split; [reflexivity|]. split; [|reflexivity].
  intros c I. repeat (destruct I as [<-|I]; [split; [discriminate|]; split; [discriminate|]; split; [discriminate|reflexivity]|]). destruct I.
Qed.

(** A day in the life: Alice registers; somebody asks for Bob's name at the
    public address, and Mallory for Alice's through the proxy; an epoch passes;
    Bob registers. *)
Definition ex_perms : permtable := permissions [mkAddress 0 true; mkAddress 1 false].
Definition ex_socks : sockets := [([key "coniks.sock"; key "tmp"], 0)].
Definition ex_bot : TwitterBot := mkTwitterBot [] (key "/tmp/coniks.sock") (key "ConiksTorMess").
Definition ex_ask (who : bytes) (k : bytes) : bytes := json_text (CreateRegistrationMsg (name1 who) k).
Definition ex_events : list event :=
  [DirectMessage (key "Alice") (messagePrefix ++ ex_ask (key "Alice") [x01]) (Some [x21]);
   Message 1 (ex_ask (key "Bob") [x02]) (Some [x22]);
   DirectMessage (key "Mallory") (messagePrefix ++ ex_ask (key "Alice") [x03]) (Some [x23]);
   Tick;
   DirectMessage (key "Bob") (messagePrefix ++ ex_ask (key "Bob") [x04]) (Some [x24])].
Definition ex_day : result Directory :=
  do d0 <- @Directory_New FixedCrypto 60 [x11] [x10] 40 true (Some [x07]) (Some [x08]);
  @happens FixedCrypto ex_perms ex_socks ex_bot d0 ex_events.
Definition shown (resp : result Response) : option (Z * option bytes * option bytes) :=
  match resp with
  | Ok x => match r_df x with
            | Some (DProof (Some p)) =>
                Some (r_error x, match dp_ap p with [Some ap] => obind (ap_leaf ap) pn_value | _ => None end, option_map tb_value (dp_tb p))
            | _ => None
            end
  | Panic => None
  end.
Example C79_day : exists d, ex_day = Ok d /\
  (forall addr text r, In (Message addr text r) ex_events -> ex_perms addr RegistrationType = false) /\
  ticks_of ex_events = 1 /\ reaches ex_bot ex_socks = Some 0 /\ ex_perms 0 RegistrationType = true /\
  ascii (key "Alice") /\ ~ folds (key "Alice") (tb_handle ex_bot) /\ length (ex_ask (key "Alice") [x01]) <= 8192 /\
  shown (@KeyLookup FixedCrypto d (key "alice@twitter")) = Some (ReqSuccess, Some [x01], None) /\
  shown (@KeyLookup FixedCrypto d (key "bob@twitter")) = Some (ReqSuccess, None, Some [x04]).
Proof.
  assert (H : match ex_day with
    | Ok d => match shown (@KeyLookup FixedCrypto d (key "alice@twitter")), shown (@KeyLookup FixedCrypto d (key "bob@twitter")) with
      | Some (c1, Some v1, None), Some (c2, None, Some v2) => Z.eqb c1 ReqSuccess && beq v1 [x01] && Z.eqb c2 ReqSuccess && beq v2 [x04]
      | _, _ => false end
    | Panic => false end = true) by (vm_compute; reflexivity).
  destruct ex_day as [d|]; [|discriminate H]. exists d. split; [reflexivity|].
  destruct (shown (@KeyLookup FixedCrypto d (key "alice@twitter"))) as [[[c1 [v1|]] [t1|]]|]; try discriminate H.
  destruct (shown (@KeyLookup FixedCrypto d (key "bob@twitter"))) as [[[c2 [v2|]] [t2|]]|]; try discriminate H.
  rewrite !andb_true_iff, !Z.eqb_eq in H. destruct H as (((A & B) & D) & E). apply beq_eq in B, E. subst.
  split. { intros addr text r I. unfold ex_events in I. repeat (destruct I as [I|I]; [try discriminate I; injection I as <- _ _; reflexivity|]). destruct I. }
  split; [reflexivity|]. split; [reflexivity|]. split; [reflexivity|].
  split. { intros c I. cbn in I. repeat (destruct I as [<-|I]; [reflexivity|]). destruct I. }
  split. { intro F. apply EqualFold_spec in F. vm_compute in F. discriminate F. }
  split; [apply Nat.leb_le; vm_compute; reflexivity|]. split; reflexivity.
Qed.
