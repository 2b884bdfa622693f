(** The registration proxy as a process: its configuration, how it finds the
    key server's socket, and the whole deployment of server and proxy.  Models
    application/bots/{bot,config,twitterbot}.go,
    cli/coniksbot/internal/cmd/{init,run}.go and the use of net/url in
    application/serverbase.go:104-140. *)
From Coq Require Import List NArith ZArith Lia Bool Arith.
From Coq Require Import String.
From Verif Require Import Base Utils Crypto Tree STR PAD Protocol Directory DirSpec Path Json JsonText Wire Text Conc Server Bot Deploy.
Import ListNotations.
Local Open Scope list_scope.
Local Open Scope nat_scope.
Notation length := List.length.

(** ** Addresses *)

(** The text before, and after, the first [c] ([strings.Cut]). *)
(** Go library net/url, called at application/serverbase.go:106 *)
Fixpoint before (c : byte) (s : bytes) : bytes :=
  match s with
  | [] => []
  | b :: s' => if byte_eqb b c then [] else b :: before c s'
  end.
(** Go library net/url, called at application/serverbase.go:106 *)
Fixpoint after (c : byte) (s : bytes) : bytes :=
  match s with
  | [] => []
  | b :: s' => if byte_eqb b c then s' else after c s'
  end.
(** What is left of the text from the first [c] on, [c] included. *)
(** Go library net/url, called at application/serverbase.go:106 *)
Fixpoint from (c : byte) (s : bytes) : bytes :=
  match s with
  | [] => []
  | b :: s' => if byte_eqb b c then s else from c s'
  end.
(** net/url: [stringContainsCTLByte] *)
(** Go library net/url, called at application/serverbase.go:106 *)
Definition is_ctl (b : byte) : bool := N.ltb (Byte.to_N b) 32 || N.eqb (Byte.to_N b) 127.
(** net/url: [ishex], [unhex] *)
(** Go library net/url, called at application/serverbase.go:106 *)
Definition hexval (b : byte) : option N :=
  let n := Byte.to_N b in
  if N.leb 48 n && N.leb n 57 then Some (n - 48)%N
  else if N.leb 65 n && N.leb n 70 then Some (n - 55)%N
  else if N.leb 97 n && N.leb n 102 then Some (n - 87)%N
  else None.
(** Go library net/url, called at application/serverbase.go:106 *)
Definition byte_of (n : N) : byte := match Byte.of_N n with Some b => b | None => x00 end.
(** net/url: [unescape] for a path or fragment; [None] is an error *)
(** Go library net/url, called at application/serverbase.go:106 *)
Fixpoint unescape (s : bytes) : option bytes :=
  match s with
  | [] => Some []
  | c :: s' =>
      if byte_eqb c x25 then
        match s' with
        | a :: b :: s'' =>
            match hexval a, hexval b with
            | Some x, Some y => option_map (cons (byte_of (16 * x + y))) (unescape s'')
            | _, _ => None
            end
        | _ => None
        end
      else option_map (cons c) (unescape s')
  end.
(** net/url: [Parse] and then [u.Path], for a text that has a scheme
    (application/serverbase.go:106, 127).  [None]: an error.  [host]: whether
    net/url accepts a non-empty text as host (its rules are not modelled). *)
Definition url_path (host : bytes -> bool) (addr : bytes) : option bytes :=
  match unescape (after x23 addr) with                      (* the fragment *)
  | None => None
  | Some _ =>
      let u := before x23 addr in
      if existsb is_ctl u then None else
      let rest := before x3f (after x3a u) in               (* scheme and query cut off *)
      match rest with
      | a :: rest' =>
          if byte_eqb a slash then
            match rest' with
            | b :: rest'' =>
                if byte_eqb b slash then
                  let authority := before slash rest'' in
                  if empty authority || host authority then unescape (from slash rest'') else None
                else unescape rest
            | [] => unescape rest
            end
          else Some []                                      (* opaque *)
      | [] => Some []
      end
  end.

(** A name for a Unix socket, used by a process in [cwd]: the place of the
    socket in the file system.  [None]: the name is empty, names an abstract
    socket ('@') or is longer than the system takes (107 bytes).  NUL bytes are
    not treated specially. *)
(** application/serverbase.go:121-131 (listening), application/bots/bot.go:32-54 (dialling) *)
Definition socket_at (cwd : place) (name : bytes) : option place :=
  match name with
  | [] => None
  | c :: _ => if byte_eqb c x40 then None
              else if Nat.leb 108 (length name) then None
              else Some (locate cwd name)
  end.

(** The sockets in the file system on which a running server listens, with
    the number of the address (in the order of the configuration):
    application/serverbase.go:126-136 for every address. *)
Definition sockets := list (place * nat).
(** application/serverbase.go:121-131 (listening), application/bots/bot.go:32-54 (dialling) *)
Fixpoint listening (host : bytes -> bool) (cwd : place) (i : nat) (l : list (Conn * bool)) : sockets :=
  match l with
  | [] => []
  | (c, _) :: l' =>
      (match scheme (cn_addr c) with
       | Some s => if beq s (key "unix")
                   then match obind (url_path host (cn_addr c)) (socket_at cwd) with Some p => [(p, i)] | None => [] end
                   else []
       | None => []
       end) ++ listening host cwd (S i) l'
  end.
(** application/serverbase.go:121-131 (listening), application/bots/bot.go:32-54 (dialling) *)
Definition who_listens (socks : sockets) (p : place) : option nat :=
  option_map snd (find (fun x => place_eqb (fst x) p) socks).

(** ** Configuration of the proxy *)

(** application/bots/config.go:12-29 with application/config.go:28-33 (as
    in Deploy.v; its Logger is nil) *)
Record BotDoc := mkBotDoc {
  bd_path : option bytes; bd_enc : option bytes; bd_addr : bytes; bd_oauth : list bytes; bd_handle : bytes }.
(** The TOML library on such documents. *)
(** application/bots/config.go:12-58 *)
Record BotToml := mkBotToml { bot_text : BotDoc -> bytes; bot_parse : bytes -> option BotDoc }.
(** application/bots/config.go:12-58 *)
Definition bot_plain (x : BotDoc) : Prop :=
  outf8 (bd_path x) /\ outf8 (bd_enc x) /\ utf8 (bd_addr x) /\ List.length (bd_oauth x) = 4 /\ Forall utf8 (bd_oauth x) /\ utf8 (bd_handle x).
(** application/bots/config.go:12-58 *)
Definition BotTomlOk (B : BotToml) : Prop := forall x, bot_plain x -> bot_parse B (bot_text B x) = Some x.

(** cli/coniksbot/internal/cmd/init.go:20-37 [mkBotConfig] *)
Definition bot_default (file : bytes) : BotDoc :=
  mkBotDoc (Some file) (Some (key "toml")) (key "/tmp/coniks.sock")
    [key "secret"; key "secret"; key "secret"; key "secret"] (key "ConiksTorMess").
(** cli/coniksbot/internal/cmd/init.go:20-36 *)
Definition bot_init (B : BotToml) (o : outcome) (cwd : place) (dir : bytes) (d : disk) : disk * option bool :=
  WriteFile o cwd d (Join dir (key "botconfig.toml")) (bot_text B (bot_default (Join dir (key "botconfig.toml")))).

(** application/bots/config.go:54-57 [Load]; [None] is an error *)
Definition BotLoad (B : BotToml) (cwd : place) (d : disk) (file : bytes) : option BotDoc :=
  obind (ReadFile cwd d file) (bot_parse B).

(** application/bots/twitterbot.go:26-31 *)
Record TwitterBot := mkTwitterBot { tb_cwd : place; tb_address : bytes; tb_handle : bytes }.
(** [os.Stat] followed by [os.IsNotExist] *)
(** cli/coniksbot/internal/cmd/run.go:26-45 *)
Definition not_exist (cwd : place) (d : disk) (socks : sockets) (path : bytes) : bool :=
  if empty path then true
  else match d (locate cwd path), who_listens socks (locate cwd path) with
       | None, None => true
       | _, _ => false
       end.
(** application/bots/twitterbot.go:43-76 [NewTwitterBot], without the deletion
    of old messages (BotMail.v).  [account]: the screen name of the account
    the secrets belong to, [None] when Twitter refuses them. *)
Definition NewTwitterBot (cwd : place) (d : disk) (socks : sockets) (account : list bytes -> option bytes) (conf : BotDoc)
  : option TwitterBot :=
  if not_exist cwd d socks (bd_addr conf) then None
  else match account (bd_oauth conf) with
       | None => None
       | Some name => if beq name (bd_handle conf) then Some (mkTwitterBot cwd (bd_addr conf) (bd_handle conf)) else None
       end.
(** cli/coniksbot/internal/cmd/run.go:26-45 [run]: it ends with a message, or
    with a panic, or serves. *)
Inductive bot_started := BNotLoaded | BPanic | BRunning (b : TwitterBot).
(** cli/coniksbot/internal/cmd/run.go:26-45 *)
Definition bot_run (B : BotToml) (cwd : place) (d : disk) (socks : sockets) (account : list bytes -> option bytes) (file : bytes)
  : bot_started :=
  match BotLoad B cwd d file with
  | None => BNotLoaded
  | Some conf => match NewTwitterBot cwd d socks account conf with
                 | None => BPanic
                 | Some b => BRunning b
                 end
  end.

(** ** The whole deployment *)

(** application/bots/bot.go:31-53 [SendRequestToCONIKS]: the address of the
    server that is reached. *)
Definition reaches (b : TwitterBot) (socks : sockets) : option nat :=
  obind (socket_at (tb_cwd b) (tb_address b)) (who_listens socks).

Section Deployment.
  Context {C : Crypto}.
  (** the server's table of permissions and sockets, and the proxy *)
  Variables (p : permtable) (socks : sockets) (b : TwitterBot).

  (** A message text arriving at an address of the server, which reads up to
      8192 bytes and sends its answer (application/serverbase.go:195-236). *)
  Definition serve (addr : nat) (text : bytes) (r : option bytes) (d : Directory) : result (Directory * option bytes) :=
    do (d', resp) <- srv_sem p (OMsg addr (received text) r) d;
    Ok (d', option_map response_text resp).
  (** One direct message handled by the proxy: the directory afterwards and
      the direct messages sent (recipient, text). *)
  (** application/bots/twitterbot.go:84-118 *)
  Definition direct_message (sender text : bytes) (r : option bytes) (d : Directory) : result (Directory * list (bytes * bytes)) :=
    let ask := fun msg =>
      match reaches b socks with
      | None => None                                        (* bot.go:35-38 *)
      | Some a => match serve a msg r d with
                  | Ok (_, Some answer) => Some (firstn limit answer)   (* bot.go:48 *)
                  | _ => None
                  end
      end in
    let '(replies, sent) := handle_dm ask (tb_handle b) sender text in
    match sent, reaches b socks with
    | msg :: _, Some a => do (d', _) <- serve a msg r d; Ok (d', replies)
    | _, _ => Ok (d, replies)
    end.

  (** What happens to a deployment: somebody's message at an address, a direct
      message to the proxy, a tick of the epoch timer, a reload. *)
  (** bot and server together: application/bots/twitterbot.go:84-173, application/serverbase.go:195-250 *)
  Inductive event :=
  | Message (addr : nat) (text : bytes) (r : option bytes)
  | DirectMessage (sender text : bytes) (r : option bytes)
  | Tick
  | ReloadPolicies (deadline : option N).
  (** bot and server together: application/bots/twitterbot.go:84-173, application/serverbase.go:195-250 *)
  Definition happen (d : Directory) (e : event) : result Directory :=
    match e with
    | Message addr text r => do (d', _) <- serve addr text r d; Ok d'
    | DirectMessage sender text r => do (d', _) <- direct_message sender text r d; Ok d'
    | Tick => do (d', _) <- srv_sem p OTick d; Ok d'
    | ReloadPolicies dl => do (d', _) <- srv_sem p (OReload dl) d; Ok d'
    end.
  (** bot and server together: application/bots/twitterbot.go:84-173, application/serverbase.go:195-250 *)
  Fixpoint happens (d : Directory) (l : list event) : result Directory :=
    match l with
    | [] => Ok d
    | e :: l' => do d' <- happen d e; happens d' l'
    end.
End Deployment.
