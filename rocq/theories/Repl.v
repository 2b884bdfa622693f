(** The command-line client as a program: the text the user types, the texts
    on the connection and the text on the screen.  Models
    cli/coniksclient/internal/cmd/{run,common}.go, protocol/error.go:54-79 and
    the uses there of strings.Fields and net/url. *)
From Coq Require Import List NArith ZArith Lia Bool Arith.
From Coq Require Import String.
From Verif Require Import Base Utils Crypto Tree STR PAD Protocol Auditor Client Path Json JsonText Wire Text Cli Deploy BotDeploy.
Import ListNotations.
Local Open Scope list_scope.
Local Open Scope nat_scope.
Notation length := List.length.

(** ** Words: strings.Fields (Go's standard library) *)

(** A text as Go's [range] over a string sees it: one item per rune; a byte
    that starts no rune is an item of its own. *)
(** Go library strings.Fields, called at cli/coniksclient/internal/cmd/run.go:63 *)
Fixpoint runes (s : bytes) : list bytes :=
  match s with
  | [] => []
  | b0 :: s1 =>
      if in_rng 0 127 b0 then [b0] :: runes s1
      else
        match s1 with
        | b1 :: s2 =>
            if in_rng 194 223 b0 && cont b1 then [b0; b1] :: runes s2
            else
              match s2 with
              | b2 :: s3 =>
                  if lead3 b0 b1 && cont b2 then [b0; b1; b2] :: runes s3
                  else
                    match s3 with
                    | b3 :: s4 =>
                        if lead4 b0 b1 && cont b2 && cont b3
                        then [b0; b1; b2; b3] :: runes s4
                        else [b0] :: runes s1
                    | [] => [b0] :: runes s1
                    end
              | [] => [b0] :: runes s1
              end
        | [] => [b0] :: runes s1
        end
  end.
(** unicode.IsSpace on the UTF-8 text of one rune: U+0009-U+000D, U+0020,
    U+0085, U+00A0, U+1680, U+2000-U+200A, U+2028, U+2029, U+202F, U+205F,
    U+3000. *)
(** Go library strings.Fields, called at cli/coniksclient/internal/cmd/run.go:63 *)
Definition is_space (r : bytes) : bool :=
  match r with
  | [a] => in_rng 9 13 a || byte_eqb a x20
  | [a; b] => byte_eqb a xc2 && (byte_eqb b x85 || byte_eqb b xa0)
  | [a; b; c] =>
      (byte_eqb a xe1 && byte_eqb b x9a && byte_eqb c x80) ||
      (byte_eqb a xe2 && byte_eqb b x80 &&
         (in_rng 128 138 c || byte_eqb c xa8 || byte_eqb c xa9 || byte_eqb c xaf)) ||
      (byte_eqb a xe2 && byte_eqb b x81 && byte_eqb c x9f) ||
      (byte_eqb a xe3 && byte_eqb b x80 && byte_eqb c x80)
  | _ => false
  end.
(** The loop of strings.FieldsFunc; [cur]: the word being read. *)
(** Go library strings.Fields, called at cli/coniksclient/internal/cmd/run.go:63 *)
Fixpoint fields_from (cur : bytes) (l : list bytes) : list bytes :=
  match l with
  | [] => if empty cur then [] else [cur]
  | r :: l' =>
      if is_space r
      then if empty cur then fields_from [] l' else cur :: fields_from [] l'
      else fields_from (cur ++ r) l'
  end.
(** Go library strings.Fields, called at cli/coniksclient/internal/cmd/run.go:63 *)
Definition Fields (line : bytes) : list bytes := fields_from [] (runes line).

(** ** Addresses: net/url *)

(** Go library net/url, called at cli/coniksclient/internal/cmd/run.go:123, 176 *)
Definition is_alpha (b : byte) : bool := in_rng 65 90 b || in_rng 97 122 b.
(** Go library net/url, called at cli/coniksclient/internal/cmd/run.go:123, 176 *)
Definition scheme_char (b : byte) : bool :=
  is_alpha b || in_rng 48 57 b || byte_eqb b x2b || byte_eqb b x2d || byte_eqb b x2e.
(** Go library net/url, called at cli/coniksclient/internal/cmd/run.go:123, 176 *)
Fixpoint span (f : byte -> bool) (s : bytes) : bytes * bytes :=
  match s with
  | [] => ([], [])
  | b :: s' => if f b then (b :: fst (span f s'), snd (span f s')) else ([], s)
  end.
(** net/url: [getScheme].  [None]: an error; [Some ([], s)]: no scheme. *)
(** Go library net/url, called at cli/coniksclient/internal/cmd/run.go:123, 176 *)
Definition get_scheme (s : bytes) : option (bytes * bytes) :=
  let (sc, rest) := span scheme_char s in
  match rest with
  | c :: r =>
      if byte_eqb c x3a then
        match sc with
        | [] => None
        | a :: _ => if is_alpha a then Some (sc, r) else Some ([], s)
        end
      else Some ([], s)
  | [] => Some ([], s)
  end.
(** net/url: [Parse] and then [u.Scheme].  [None]: [Parse] returns an error
    (and a nil URL).  [host] as for [url_path] in BotDeploy.v. *)
(** Go library net/url, called at cli/coniksclient/internal/cmd/run.go:123, 176 *)
Definition url_scheme (host : bytes -> bool) (addr : bytes) : option bytes :=
  match unescape (after x23 addr) with                      (* the fragment *)
  | None => None
  | Some _ =>
      let u := before x23 addr in
      if existsb is_ctl u then None else
      match get_scheme u with
      | None => None
      | Some (sc, rest0) =>
          let rest := before x3f rest0 in                   (* the query *)
          let path p := option_map (fun _ : bytes => map lower sc) (unescape p) in
          match rest with
          | a :: rest' =>
              if byte_eqb a slash then
                match rest' with
                | b :: rest'' =>
                    if byte_eqb b slash && (negb (empty sc) || negb (match rest'' with c :: _ => byte_eqb c slash | [] => false end))
                    then if empty (before slash rest'') || host (before slash rest'')
                         then path (from slash rest'') else None
                    else path rest
                | [] => path rest
                end
              else if negb (empty sc) then Some (map lower sc)            (* opaque *)
              else if existsb (byte_eqb x3a) (before slash rest) then None else path rest
          | [] => Some (map lower sc)
          end
      end
  end.

(** ** The screen *)

(** protocol/error.go:54-79, [Error]: the text of a code, "" if there is none *)
Definition error_text (e : ErrorCode) : bytes :=
  if Z.eqb e ReqSuccess then key "[coniks] Successful client request"
  else if Z.eqb e ReqNameExisted then key "[coniks] Registering identity is already registered"
  else if Z.eqb e ReqNameNotFound then key "[coniks] Searched name not found in directory"
  else if Z.eqb e ErrMalformedMessage then key "[coniks] Malformed message"
  else if Z.eqb e ErrDirectory then key "[coniks] Directory error"
  else if Z.eqb e ErrAuditLog then key "[coniks] Audit log error"
  else if Z.eqb e CheckBadSignature then key "[coniks] Directory's signature on STR or TB is invalid"
  else if Z.eqb e CheckBadVRFProof then key "[coniks] Returned index is not valid for the given name"
  else if Z.eqb e CheckBindingsDiffer then key "[coniks] The key in the binding is inconsistent with our expectation"
  else if Z.eqb e CheckBadCommitment then key "[coniks] The name-to-key binding commitment is not verifiable"
  else if Z.eqb e CheckBadLookupIndex then key "[coniks] The lookup index is inconsistent with the index of the proof node"
  else if Z.eqb e CheckBadAuthPath then key "[coniks] Returned binding is inconsistent with the tree root hash"
  else if Z.eqb e CheckBadSTR then key "[coniks] The hash chain is inconsistent"
  else if Z.eqb e CheckBadPromise then key "[coniks] The directory returned an invalid registration promise"
  else if Z.eqb e CheckBrokenPromise then key "[coniks] The directory broke the registration promise"
  else [].

(** cli/coniksclient/internal/cmd/run.go:111-217: the text returned by
    [register] and [keyLookup].  [neterr]: the text of the error of the
    connection.  ([GetKey] never fails where it is called: the messages for
    that case are not modelled.) *)
Definition message (neterr : bytes) (s : said) : bytes :=
  match s with
  | SReceiveError => key "Error while receiving response: " ++ neterr
  | SMissedEpoch => key "Error: " ++ error_text CheckBadSTR ++
      key ". Maybe the client missed an epoch in between two commands, monitoring isn't supported yet."
  | SRegistered name => key "Succesfully registered name: " ++ name
  | SAlreadyRegistered => key "Name is already registered."
  | SKeyChange => key "Are you trying to update your binding? Unfortunately, KeyChange isn't supported yet."
  | SOtherKey got wanted => key "Oops! The server snuck in some other key. [" ++ got ++
      key "] was registered instead of [" ++ wanted ++ key "]"
  | SFound k => key "Found! Key bound to name is: [" ++ k ++ key "]"
  | SNotRegistered => key "Name isn't registered."
  | SError e => key "Error: " ++ error_text e
  | SNothing => []
  end.
(** run.go:20-32; the tabs and line ends are written as they are there. *)
Definition crlf_tab : bytes := [x0d; x0a; x09].
(** cli/coniksclient/internal/cmd/run.go:20-33 *)
Definition crlf : bytes := [x0d; x0a].
(** cli/coniksclient/internal/cmd/run.go:20-33 *)
Definition help_text : bytes :=
  key "- register [name] [key]:" ++ crlf_tab ++ key "Register a new name-to-key binding on the CONIKS-server." ++ crlf ++
  key "- lookup [name]:" ++ crlf_tab ++ key "Lookup the key of some known contact or your own bindings." ++ crlf ++
  key "- enable timestamp:" ++ crlf_tab ++ key "Print timestamp of format <15:04:05.999999999> along with the result." ++ crlf ++
  key "- disable timestamp:" ++ crlf_tab ++ key "Disable timestamp printing." ++ crlf ++
  key "- help:" ++ crlf_tab ++ key "Display this message." ++ crlf ++
  key "- exit, q:" ++ crlf_tab ++ key "Close the REPL and exit the client.".

(** A line on the screen: with a time stamp or not (common.go:41-46). *)
Definition shown := (bool * bytes)%type.

(** ** The program *)
Section Repl.
  Context {C : Crypto}.
  Variable host : bytes -> bool.     (* what net/url takes as a host *)

  (** What the connection gives: an error with its text, or bytes. *)
  (** cli/coniksclient/internal/cmd/run.go:111-217, what the connection gives *)
  Inductive reply := RError (text : bytes) | RBytes (s : bytes).
  (** run.go:115-136, 173-190: opening the connection by the scheme of the
      address.  [Panic]: the error of [url.Parse] is ignored and the nil URL
      used; [Ok false]: "Invalid config!". *)
  Definition usable (addr : bytes) : result bool :=
    match url_scheme host addr with
    | None => Panic
    | Some s => Ok (beq s (key "tcp") || beq s (key "unix"))
    end.
  (** What is left of the bytes after application/testutil/testutil.go:159,
      192 and [json.Unmarshal]. *)
  Definition answer_of (x : reply) : option (option json) :=
    match x with RError _ => None | RBytes s => Some (received s) end.
  (** cli/coniksclient/internal/cmd/run.go:111-217 *)
  Definition error_of (x : reply) : bytes := match x with RError t => t | RBytes _ => [] end.

  (** The state of the loop: [isDebugging] and the consistency checks. *)
  (** cli/coniksclient/internal/cmd/run.go:42-109, the variables of the loop *)
  Record repl := mkRepl { rp_debug : bool; rp_cc : Checks }.
  (** What one command does: new state, text shown, request sent (address and
      bytes). *)
  (** cli/coniksclient/internal/cmd/run.go:42-109 *)
  Record effect := mkEffect { ef_state : repl; ef_shown : list shown; ef_sent : list (bytes * bytes); ef_on : bool }.
  (** cli/coniksclient/internal/cmd/common.go:42-47 *)
  Definition says (st : repl) (msg : bytes) : effect := mkEffect st [(rp_debug st, msg)] [] true.

  (** run.go:111-167 [register], with the address as in :117-121 *)
  Definition reg_address (conf : ClientLoaded) : bytes :=
    if empty (cl_reg conf) then cl_addr conf else cl_reg conf.
  (** cli/coniksclient/internal/cmd/run.go:111-167 *)
  Definition do_register (conf : ClientLoaded) (st : repl) (x : reply) (name k : bytes) : result effect :=
    do ok <- usable (reg_address conf);
    if negb ok then Ok (says st (key "[+] " ++ key "Invalid config!"))
    else
      do (cc', s) <- register (rp_cc st) (answer_of x) name k;
      Ok (mkEffect (mkRepl (rp_debug st) cc') [(rp_debug st, key "[+] " ++ message (error_of x) s)]
            [(reg_address conf, json_text (CreateRegistrationMsg name k))] true).
  (** run.go:169-217 [keyLookup] *)
  Definition do_lookup (conf : ClientLoaded) (st : repl) (x : reply) (name : bytes) : result effect :=
    do ok <- usable (cl_addr conf);
    if negb ok then Ok (says st (key "[+] " ++ key "Invalid config!"))
    else
      do (cc', s) <- keyLookup (rp_cc st) (answer_of x) name;
      Ok (mkEffect (mkRepl (rp_debug st) cc') [(rp_debug st, key "[+] " ++ message (error_of x) s)]
            [(cl_addr conf, json_text (CreateKeyLookupMsg name))] true).

  (** run.go:58-108: one turn of the loop on the line read.  [x]: what the
      connection will give if one is opened. *)
  Definition turn (conf : ClientLoaded) (st : repl) (line : bytes) (x : reply) : result effect :=
    match Fields line with
    | [] => Ok (says st (key "[!] Type ""help"" for more information."))
    | cmd :: rest =>
        if beq cmd (key "exit") || beq cmd (key "q") then
          Ok (mkEffect st [(rp_debug st, key "[+] See ya.")] [] false)
        else if beq cmd (key "help") then Ok (mkEffect st [(false, help_text)] [] true)
        else if beq cmd (key "enable") || beq cmd (key "disable") then
          match rest with
          | [what] =>
              if beq what (key "timestamp")
              then Ok (mkEffect (mkRepl (beq cmd (key "enable")) (rp_cc st)) [] [] true)
              else Ok (says st (key "[!] Unrecognized command: " ++ line))
          | _ => Ok (says st (key "[!] Unrecognized command: " ++ line))
          end
        else if beq cmd (key "register") then
          match rest with
          | [name; k] => do_register conf st x name k
          | _ => Ok (says st (key "[!] Incorrect number of args to register."))
          end
        else if beq cmd (key "lookup") then
          match rest with
          | [name] => do_lookup conf st x name
          | _ => Ok (says st (key "[!] Incorrect number of args to lookup."))
          end
        else Ok (says st (key "[!] Unrecognized command: " ++ cmd))
    end.

  (** run.go:45-57: the state at the start. *)
  Definition repl_start (conf : ClientLoaded) (debug : bool) : result repl :=
    do cc <- Client_New (cl_str conf) true (cl_key conf); Ok (mkRepl debug cc).
  (** The whole session: what is typed and what the network gives, until the
      user leaves or the input ends. *)
  (** cli/coniksclient/internal/cmd/run.go:42-109 *)
  Fixpoint repl_run (conf : ClientLoaded) (st : repl) (l : list (bytes * reply)) : result (repl * list shown * list (bytes * bytes)) :=
    match l with
    | [] => Ok (st, [], [])
    | (line, x) :: l' =>
        do e <- turn conf st line x;
        if ef_on e then
          do (y, sent) <- repl_run conf (ef_state e) l';
          Ok (fst y, ef_shown e ++ snd y, ef_sent e ++ sent)
        else Ok (ef_state e, ef_shown e, ef_sent e)
    end.
End Repl.
