(** Setting up and starting a deployment: configuration files, key files and
    the initial STR on a disk.  Models application/config.go,
    application/config_encoding.go, application/logger.go:31-71 (opening the
    log), application/server/config.go, application/server/server.go:40-143
    (the parts touching files and addresses), application/client/config.go,
    cli/coniksserver/internal/cmd/{init,run}.go,
    cli/coniksclient/internal/cmd/init.go and
    application/testutil/testutil.go:59-115. *)
From Coq Require Import List NArith ZArith Lia Bool Arith.
From Coq Require Import String.
From Verif Require Import Base Utils Crypto Tree STR PAD Protocol Directory DirSpec Path Json JsonText Wire Conc Server.
Import ListNotations.
Local Open Scope list_scope.
Local Open Scope nat_scope.
Notation length := List.length.

(** ** Disk *)

(** What is at a place (Path.v).  Permissions, links and other kinds of nodes
    are not modelled; nor is the kernel's check that the directories a path
    walks through exist (only the parent of a new file is checked). *)
(** the file system under utils/utils.go:45-64 *)
Inductive node := File (content : bytes) | Folder.
(** the file system under utils/utils.go:45-64 *)
Definition disk := place -> option node.
(** the file system under utils/utils.go:45-64 *)
Fixpoint place_eqb (p q : place) : bool :=
  match p, q with
  | [], [] => true
  | a :: p', b :: q' => beq a b && place_eqb p' q'
  | _, _ => false
  end.
(** the file system under utils/utils.go:45-64 *)
Definition put (d : disk) (p : place) (n : node) : disk := fun q => if place_eqb q p then Some n else d q.
(** [ioutil.ReadFile] for a process in [cwd]; [None] is an error. *)
(** called at application/config.go:59, 75 and application/server/config.go:56-93 *)
Definition ReadFile (cwd : place) (d : disk) (path : bytes) : option bytes :=
  match d (locate cwd path) with Some (File b) => Some b | _ => None end.
(** the file system under utils/utils.go:45-64 *)
Definition is_folder (d : disk) (p : place) : bool := match d p with Some Folder => true | _ => false end.

(** How the system treats one file being written: normally; the opening fails;
    the writing fails after [n] bytes; the process is stopped before the file
    is there, or with [n] bytes in it. *)
(** failures and crashes during utils/utils.go:45-55 *)
Inductive outcome := Fine | OpenFails | WriteFails (n : nat) | StopBefore | StopAfter (n : nat).
(** [Some ok]: the call returns, [ok] = nil error.  [None]: the process is
    stopped. *)
(** failures and crashes during utils/utils.go:45-55 *)
Definition spoiled (o : outcome) : option bool :=
  match o with StopBefore | StopAfter _ => None | _ => Some false end.
(** Writing through a file opened for writing (created or truncated). *)
(** utils/utils.go:51 *)
Definition write_to (o : outcome) (d : disk) (p : place) (buf : bytes) : disk * option bool :=
  match o with
  | Fine => (put d p (File buf), Some true)
  | OpenFails | StopBefore => (d, spoiled o)
  | WriteFails n | StopAfter n => (put d p (File (firstn n buf)), spoiled o)
  end.
(** utils/utils.go:45-55 [WriteFile], one process at a time (the system calls
    one by one, and other processes: Storage.v). *)
Definition WriteFile (o : outcome) (cwd : place) (d : disk) (path buf : bytes) : disk * option bool :=
  let p := locate cwd path in
  match d p with
  | Some _ => (d, match o with StopBefore => None | _ => Some false end)
  | None => if is_folder d (tl p) then write_to o d p buf
            else (d, match o with StopBefore => None | _ => Some false end)
  end.
(** [os.Create], [os.OpenFile] with O_TRUNC, and writing whose errors are
    ignored: no check for an existing file (a folder cannot be opened).
    [Some opened]: the process goes on. *)
(** cli/coniksserver/internal/cmd/run.go:52-61 *)
Definition Overwrite (o : outcome) (cwd : place) (d : disk) (path buf : bytes) : disk * option bool :=
  let p := locate cwd path in
  let able := match d p with Some Folder => false | Some (File _) => true | None => is_folder d (tl p) end in
  match o with
  | StopBefore => (d, None)
  | OpenFails => (d, Some false)
  | Fine => if able then (put d p (File buf), Some true) else (d, Some false)
  | WriteFails n => if able then (put d p (File (firstn n buf)), Some true) else (d, Some false)
  | StopAfter n => if able then (put d p (File (firstn n buf)), None) else (d, Some false)
  end.

(** ** Configuration files *)

(** application/logger.go:19-23 *)
Record LoggerDoc := mkLogger { lg_trace : bool; lg_env : bytes; lg_path : bytes }.
(** application/server/policies.go:12-18, without the keys themselves *)
Record PolDoc := mkPol { po_deadline : N; po_vrf : bytes; po_sign : bytes }.
(** application/serverbase.go:40-49 *)
Record Conn := mkConn { cn_addr : bytes; cn_cert : bytes; cn_key : bytes }.
(** application/server/server.go:21-24: the embedded pointer is nil when none
    of its keys is in the file. *)
Record AddrDoc := mkAddr { aa_conn : option Conn; aa_allow : bool }.
(** application/server/config.go:17-30 with application/config.go:28-33
    (embedded).  [sd_path], [sd_enc]: [None] when the file has no such key. *)
Record ServerDoc := mkServerDoc {
  sd_path : option bytes; sd_enc : option bytes; sd_logger : option LoggerDoc;
  sd_hist : N; sd_pol : option PolDoc; sd_str : bytes; sd_addrs : list AddrDoc; sd_deadline : N }.
(** application/client/config.go:17-29; [SigningPubKey] and [InitSTR] are nil
    when a configuration is saved and overwritten when it is loaded. *)
Record ClientDoc := mkClientDoc {
  cd_path : option bytes; cd_enc : option bytes;
  cd_pub : bytes; cd_str : bytes; cd_reg : bytes; cd_addr : bytes }.

(** The TOML library: what it writes for a document and what it reads from a
    text ([None]: an error). *)
(** called at application/config_encoding.go:37-57 *)
Record Toml := mkToml {
  server_text : ServerDoc -> bytes; server_parse : bytes -> option ServerDoc;
  client_text : ClientDoc -> bytes; client_parse : bytes -> option ClientDoc }.

(** Documents TOML can express: UTF-8 strings, integers below 2^63. *)
(** application/config_encoding.go:37-57 *)
Definition outf8 (o : option bytes) : Prop := match o with Some s => utf8 s | None => True end.
(** application/server/config.go:17-30 *)
Definition server_plain (x : ServerDoc) : Prop :=
  outf8 (sd_path x) /\ outf8 (sd_enc x) /\
  match sd_logger x with Some l => utf8 (lg_env l) /\ utf8 (lg_path l) | None => True end /\
  (sd_hist x < 2 ^ 63)%N /\
  match sd_pol x with Some p => (po_deadline p < 2 ^ 63)%N /\ utf8 (po_vrf p) /\ utf8 (po_sign p) | None => True end /\
  utf8 (sd_str x) /\
  Forall (fun a => match aa_conn a with Some c => utf8 (cn_addr c) /\ utf8 (cn_cert c) /\ utf8 (cn_key c) | None => True end) (sd_addrs x) /\
  (sd_deadline x < 2 ^ 63)%N.
(** application/client/config.go:17-28 *)
Definition client_plain (x : ClientDoc) : Prop :=
  outf8 (cd_path x) /\ outf8 (cd_enc x) /\ utf8 (cd_pub x) /\ utf8 (cd_str x) /\ utf8 (cd_reg x) /\ utf8 (cd_addr x).
(** ... and it reads back what it wrote. *)
(** application/config_encoding.go:37-57 *)
Record TomlOk (T : Toml) : Prop := {
  ok_server : forall x, server_plain x -> server_parse T (server_text T x) = Some x;
  ok_client : forall x, client_plain x -> client_parse T (client_text T x) = Some x }.

Section Deploy.
  Context {C : Crypto}.
  Variable T : Toml.

  (** application/server/config.go:17-30 as [Load] leaves it. *)
  Record Loaded := mkLoaded {
    ld_path : bytes; ld_enc : bytes; ld_logger : LoggerDoc; ld_hist : N; ld_pol : PolicyConf;
    ld_str : bytes; ld_conns : list (Conn * bool); ld_deadline : N }.

  (** sign.PrivateKeySize, vrf.PrivateKeySize, sign.PublicKeySize *)
  (** crypto/sign/sign.go:12-19, crypto/vrf/vrf.go:33-39 *)
  Definition PrivateKeySize : nat := 64.
  (** crypto/sign/sign.go:12-19 *)
  Definition PublicKeySize : nat := 32.

  (** application/server/config.go:85-88; [None]: an address without embedded
      part, a nil dereference *)
  Fixpoint resolve_addrs (file : bytes) (l : list AddrDoc) : option (list (Conn * bool)) :=
    match l with
    | [] => Some []
    | a :: l' =>
        match aa_conn a with
        | None => None
        | Some c =>
            match resolve_addrs file l' with
            | None => None
            | Some r => Some ((mkConn (cn_addr c) (ResolvePath (cn_cert c) file) (ResolvePath (cn_key c) file), aa_allow a) :: r)
            end
        end
    end.
  (** application/server/config.go:56-93 [Load]; [Ok None] is an error.  The
      values already in [conf] come first (application/config.go:39-46) and
      are replaced by what the file says. *)
  Definition Load (cwd : place) (d : disk) (file enc : bytes) : result (option Loaded) :=
    match ReadFile cwd d file with                                   (* :58, config_encoding.go:52-57 *)
    | None => Ok None
    | Some text =>
    match server_parse T text with
    | None => Ok None
    | Some doc =>
    match sd_pol doc with
    | None => Panic                                                  (* :63, nil Policies *)
    | Some pol =>
    match ReadFile cwd d (ResolvePath (po_sign pol) file) with       (* :63-67 *)
    | None => Ok None
    | Some sk =>
    if negb (Nat.eqb (length sk) PrivateKeySize) then Ok None else   (* :68-70 *)
    match ReadFile cwd d (ResolvePath (po_vrf pol) file) with        (* :73-77 *)
    | None => Ok None
    | Some vk =>
    if negb (Nat.eqb (length vk) PrivateKeySize) then Ok None else   (* :78-80 *)
    match resolve_addrs file (sd_addrs doc) with                     (* :85-88 *)
    | None => Panic
    | Some conns =>
    match sd_logger doc with
    | None => Panic                                                  (* :90, nil Logger *)
    | Some lg =>
        Ok (Some (mkLoaded
          (match sd_path doc with Some p => p | None => file end)
          (match sd_enc doc with Some e => e | None => enc end)
          (mkLogger (lg_trace lg) (lg_env lg) (ResolvePath (lg_path lg) file))
          (sd_hist doc) (mkPolicyConf (po_deadline pol) vk sk) (sd_str doc) conns (sd_deadline doc)))
    end end end end end end end.

  (** application/logger.go:31-71 [NewLogger]: the environment must be known
      and the log file must open (created when missing); otherwise it
      panics.  "stdout" and "stderr" are the standard streams for zap. *)
  Definition NewLogger (cwd : place) (d : disk) (lg : LoggerDoc) : result disk :=
    if EqualFold (key "development") (lg_env lg) || EqualFold (key "production") (lg_env lg) then
      if empty (lg_path lg) || beq (lg_path lg) (key "stdout") || beq (lg_path lg) (key "stderr") then Ok d
      else
        let p := locate cwd (lg_path lg) in
        match d p with
        | Some (File _) => Ok d
        | Some Folder => Panic
        | None => if is_folder d (tl p) then Ok (put d p (File [])) else Panic
        end
    else Panic.

  (** The addresses as the permission table knows them (Server.v): one pointer
      each. *)
  (** application/server/server.go:40-76 *)
  Definition addresses (conns : list (Conn * bool)) : list Address :=
    map (fun x => mkAddress (fst x) (snd x)) (combine (seq 0 (length conns)) (map snd conns)).
  (** application/server/config.go:56-93 *)
  Definition to_config (c : Loaded) : Config :=
    mkConfig (addresses (ld_conns c)) (N.to_nat (ld_hist c)) (ld_pol c) (ld_deadline c).

  (** A server process: where it runs, which configuration file it will
      reload (application/serverbase.go:67-68, 82-83), and the server. *)
  Record Process := mkProcess { pr_cwd : place; pr_file : bytes; pr_enc : bytes; pr_server : Server }.

  (** application/server/server.go:40-76 [NewConiksServer] with its files.
      [o]: how the system treats the writing of the initial STR, whose error
      is ignored (:73); a stopped process is [None]. *)
  Definition StartServer (o : outcome) (cwd : place) (d : disk) (c : Loaded) (r1 r2 : option bytes)
    : result (disk * option Process) :=
    do d1 <- NewLogger cwd d (ld_logger c);                          (* :54, serverbase.go:80 *)
    do (sv, _) <- NewConiksServer (to_config c) [] (fun _ => None) r1 r2;
    let '(d2, ret) := WriteFile o cwd d1 (ResolvePath (ld_str c) (ld_path c))
                        (json_text (enc_dirstr (LatestSTR (sv_dir sv)))) in (* :72-73, config.go:90-101 *)
    Ok (d2, match ret with None => None | Some _ => Some (mkProcess cwd (ld_path c) (ld_enc c) sv) end).

  (** application/serverbase.go:104-140 [resolveAndListen].  [net addr]: the
      address can be parsed and bound, and its certificate and key (when TLS
      needs them) fit together; the files themselves are looked up here. *)
  Fixpoint upto_colon (s : bytes) : option bytes :=
    match s with
    | [] => None
    | c :: s' => if byte_eqb c x3a then Some [] else option_map (cons c) (upto_colon s')
    end.
  (** application/serverbase.go:104-140 *)
  Definition scheme (addr : bytes) : option bytes := option_map (map lower) (upto_colon addr).
  (** application/serverbase.go:93-140 *)
  Definition Listen (net : bytes -> bool) (cwd : place) (d : disk) (c : Conn) : result unit :=
    match scheme (cn_addr c) with
    | Some s =>
        if beq s (key "tcp") then
          match ReadFile cwd d (cn_cert c), ReadFile cwd d (cn_key c) with
          | Some _, Some _ => if net (cn_addr c) then Ok tt else Panic
          | _, _ => Panic
          end
        else if beq s (key "unix") then if net (cn_addr c) then Ok tt else Panic
        else Panic
    | None => Panic
    end.
  (** application/server/server.go:106-129 [Run]: one listener after the
      other; a panic ends the process. *)
  Fixpoint Run (net : bytes -> bool) (cwd : place) (d : disk) (l : list (Conn * bool)) : result unit :=
    match l with
    | [] => Ok tt
    | (c, _) :: l' => do _ <- Listen net cwd d c; Run net cwd d l'
    end.
  (** cli/coniksserver/internal/cmd/run.go:30-50 [run] up to the point where it
      serves.  [Ok (d, None)]: the process ended (log.Fatal or stopped); the
      disk remains after a panic as well, so [Run] is kept apart in
      [run_server]. *)
  Inductive started := NotLoaded | Crashed | Stopped | Serving (p : Process).
  (** cli/coniksserver/internal/cmd/run.go:30-50 *)
  Definition run_server (o : outcome) (net : bytes -> bool) (cwd : place) (d : disk) (file : bytes) (r1 r2 : option bytes)
    : disk * started :=
    match Load cwd d file (key "toml") with
    | Panic => (d, Crashed)
    | Ok None => (d, NotLoaded)
    | Ok (Some c) =>
        match StartServer o cwd d c r1 r2 with
        | Panic => (d, Crashed)
        | Ok (d', None) => (d', Stopped)
        | Ok (d', Some p) =>
            match Run net cwd d' (ld_conns c) with
            | Panic => (d', Crashed)
            | Ok _ => (d', Serving p)
            end
        end
    end.

  (** application/server/server.go:131-143 [updatePolicies] on the signal
      SIGUSR2: [Panic] ends the server. *)
  Definition Reload (d : disk) (p : Process) : result Process :=
    do o <- Load (pr_cwd p) d (pr_file p) (pr_enc p);
    do sv <- sv_step (pr_server p) (OReload (option_map (fun c => pc_deadline (ld_pol c)) o));
    Ok (mkProcess (pr_cwd p) (pr_file p) (pr_enc p) sv).

  (** ** init *)

  (** cli/coniksserver/internal/cmd/init.go:39-75 [mkConfig] *)
  Definition default_doc (file : bytes) : ServerDoc :=
    mkServerDoc (Some file) (Some (key "toml"))
      (Some (mkLogger true (key "development") (key "coniksserver.log")))
      1000000
      (Some (mkPol 60 (key "vrf.priv") (key "sign.priv")))
      (key "init.str")
      [mkAddr (Some (mkConn (key "unix:///tmp/coniks.sock") [] [])) true;
       mkAddr (Some (mkConn (key "tcp://0.0.0.0:3000") (key "server.pem") (key "server.key"))) false]
      0.
  (** cli/coniksserver/internal/cmd/init.go:39-75 *)
  Definition config_file (dir : bytes) : bytes := Join dir (key "config.toml").
  (** What a step writes: a list of files, left at the first error. *)
  (** cli/coniksserver/internal/cmd/init.go:39-75 *)
  Definition config_job (dir : bytes) : list (bytes * bytes) :=
    [(config_file dir, server_text T (default_doc (config_file dir)))].
  (** :77-92 [mkSigningKey], :94-109 [mkVrfKey]; [None]: key generation
      failed. *)
  Definition sign_job (dir : bytes) (k : option bytes) : list (bytes * bytes) :=
    match k with
    | None => []
    | Some sk => [(Join dir (key "sign.priv"), sk); (Join dir (key "sign.pub"), sign_pub sk)]
    end.
  (** cli/coniksserver/internal/cmd/init.go:94-109 *)
  Definition vrf_job (dir : bytes) (k : option bytes) : list (bytes * bytes) :=
    match k with
    | None => []
    | Some sk => [(Join dir (key "vrf.priv"), sk); (Join dir (key "vrf.pub"), vrf_pub sk)]
    end.
  (** The Boolean says whether the process still runs.  [os]: the treatment of
      the successive writes. *)
  (** cli/coniksserver/internal/cmd/init.go:27-109 *)
  Fixpoint do_job (os : list outcome) (cwd : place) (d : disk) (l : list (bytes * bytes)) : disk * bool :=
    match l with
    | [] => (d, true)
    | (path, buf) :: l' =>
        match WriteFile (hd Fine os) cwd d path buf with
        | (d', Some true) => do_job (tl os) cwd d' l'
        | (d', Some false) => (d', true)
        | (d', None) => (d', false)
        end
    end.
  (** application/testutil/testutil.go:59-115 [CreateTLSCert], its two files;
      [tls]: their contents, [None] when they cannot be made. *)
  Definition do_cert (os : list outcome) (cwd : place) (d : disk) (dir : bytes) (tls : option (bytes * bytes)) : disk :=
    match tls with
    | None => d
    | Some (cert, k) =>
        match Overwrite (hd Fine os) cwd d (Join dir (key "server.pem")) cert with
        | (d', Some true) => fst (Overwrite (hd Fine (tl os)) cwd d' (Join dir (key "server.key")) k)
        | (d', _) => d'
        end
    end.
  (** cli/coniksserver/internal/cmd/init.go:27-37 [initRunFunc] *)
  Record InitArgs := mkInit {
    in_cwd : place; in_dir : bytes; in_sign : option bytes; in_vrf : option bytes;
    in_cert : option (option (bytes * bytes)); (* the flag -c and what it makes *)
    in_os1 : list outcome; in_os2 : list outcome; in_os3 : list outcome; in_os4 : list outcome }.
  (** cli/coniksserver/internal/cmd/init.go:27-37 *)
  Definition init (a : InitArgs) (d : disk) : disk :=
    let '(d1, go1) := do_job (in_os1 a) (in_cwd a) d (config_job (in_dir a)) in
    if negb go1 then d1 else
    let '(d2, go2) := do_job (in_os2 a) (in_cwd a) d1 (sign_job (in_dir a) (in_sign a)) in
    if negb go2 then d2 else
    let '(d3, go3) := do_job (in_os3 a) (in_cwd a) d2 (vrf_job (in_dir a) (in_vrf a)) in
    if negb go3 then d3 else
    match in_cert a with
    | None => d3
    | Some tls => do_cert (in_os4 a) (in_cwd a) d3 (in_dir a) tls
    end.

  (** ** The client *)

  (** cli/coniksclient/internal/cmd/init.go:21-33 [mkConfigOrExit] *)
  Definition client_default (file : bytes) : ClientDoc :=
    mkClientDoc (Some file) (Some (key "toml")) (key "../coniksserver/sign.pub")
      (key "../../keyserver/coniksserver/init.str") (key "tcp://127.0.0.1:3000") (key "tcp://127.0.0.1:3000").
  (** cli/coniksclient/internal/cmd/init.go:21-33 *)
  Definition client_init (o : outcome) (cwd : place) (dir : bytes) (d : disk) : disk * option bool :=
    WriteFile o cwd d (Join dir (key "config.toml")) (client_text T (client_default (Join dir (key "config.toml")))).

  (** application/config.go:57-67 [LoadSigningPubKey] *)
  Definition LoadSigningPubKey (cwd : place) (d : disk) (path file : bytes) : option bytes :=
    match ReadFile cwd d (ResolvePath path file) with
    | None => None
    | Some pk => if Nat.eqb (length pk) PublicKeySize then Some pk else None
    end.
  (** application/config.go:73-87 [LoadInitSTR] from a text *)
  Definition LoadInitSTR_at (cwd : place) (d : disk) (path file : bytes) : result (option DirSTR) :=
    match ReadFile cwd d (ResolvePath path file) with
    | None => Ok None
    | Some text => match json_parse text with
                   | None => Ok None
                   | Some j => LoadInitSTR (fun _ => Some j) []
                   end
    end.
  (** application/client/config.go:52-73 [Load] *)
  Record ClientLoaded := mkClientLoaded {
    cl_path : bytes; cl_enc : bytes; cl_key : bytes; cl_str : DirSTR; cl_reg : bytes; cl_addr : bytes }.
  (** application/client/config.go:52-73 *)
  Definition ClientLoad (cwd : place) (d : disk) (file enc : bytes) : result (option ClientLoaded) :=
    match ReadFile cwd d file with
    | None => Ok None
    | Some text =>
    match client_parse T text with
    | None => Ok None
    | Some doc =>
    match LoadSigningPubKey cwd d (cd_pub doc) file with
    | None => Ok None
    | Some pk =>
        do o <- LoadInitSTR_at cwd d (cd_str doc) file;
        Ok (option_map (fun s => mkClientLoaded
              (match cd_path doc with Some p => p | None => file end)
              (match cd_enc doc with Some e => e | None => enc end)
              pk s (cd_reg doc) (cd_addr doc)) o)
    end end end.

  (** ** coniks.pid: cli/coniksserver/internal/cmd/run.go:52-61 [writePID].
      Opened without O_TRUNC: the number is written over the first bytes of
      what is there. *)
  Definition writePID (cwd : place) (d : disk) (pid : N) : disk :=
    let p := locate cwd (Join [dot] (key "coniks.pid")) in
    match d p with
    | Some (File old) => put d p (File (decimal pid ++ skipn (length (decimal pid)) old))
    | Some Folder => d
    | None => if is_folder d (tl p) then put d p (File (decimal pid)) else d
    end.
End Deploy.
