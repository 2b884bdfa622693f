(** Model of the registration proxy: application/bots/{bot,twitterbot}.go. *)
From Coq Require Import List NArith ZArith Lia Bool Arith.
From Coq Require String.
From Verif Require Import Base Utils Crypto Tree STR PAD Protocol Json JsonText Wire Text.
Import ListNotations.

(** [strings.ToLower] on ASCII text (screen names are ASCII letters, digits and
    underscores). *)
(** Go library strings.ToLower, application/bots/twitterbot.go:147 *)
Definition to_lower (s : bytes) : bytes := map lower s.

(** The suffix of application/bots/twitterbot.go:147 and the prefix of
    application/bots/bot.go:15. *)
Definition suffix : bytes := [x40; x74; x77; x69; x74; x74; x65; x72].
(** application/bots/bot.go:14-16 *)
Definition messagePrefix : bytes := [x3f; x43; x4f; x4e; x49; x4b; x53; x3f].

Section Bot.
  (** What happens when bytes are sent to the key server's registration socket
      (application/bots/bot.go:31-53): [None] is an error. *)
  Variable server : bytes -> option bytes.

  (** application/bots/twitterbot.go:137-173 [HandleRegistration]: the text
      returned, and what was sent to the server. *)
  Definition request_ok (username : bytes) (msg : bytes) : bool :=
    match obind (json_parse msg) UnmarshalRequest with
    | None => false
    | Some req =>
        match q_body req with
        | WRegistration name _ _ _ =>
            Z.eqb (q_type req) RegistrationType && EqualFold (to_lower username ++ suffix) name
        | _ => false
        end
    end.
  (** application/bots/twitterbot.go:137-173 *)
  Definition HandleRegistration (username : bytes) (msg : bytes) : bytes * list bytes :=
    if request_ok username msg then
      match server msg with
      | Some res => (res, [msg])
      | None => (json_text (MarshalResponse (NewErrorResponse ErrDirectory)), [msg])
      end
    else (json_text (MarshalResponse (NewErrorResponse ErrMalformedMessage)), []).

  (** application/bots/twitterbot.go:84-118 *)
  Fixpoint strip_prefix (p s : bytes) : option bytes :=
    match p, s with
    | [], _ => Some s
    | a :: p', b :: s' => if byte_eqb a b then strip_prefix p' s' else None
    | _, [] => None
    end.
  (** application/bots/twitterbot.go:85-104, the handler for one direct
      message: the replies sent (recipient, text) and what went to the server.
      Deleting the messages afterwards is not modelled. *)
  Definition handle_dm (handle sender text : bytes) : list (bytes * bytes) * list bytes :=
    if EqualFold sender handle then ([], [])
    else match strip_prefix messagePrefix text with
         | None => ([], [])
         | Some msg => let '(res, sent) := HandleRegistration sender msg in
                       ([(sender, messagePrefix ++ res)], sent)
         end.
End Bot.
