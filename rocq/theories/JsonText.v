(** The text syntax of JSON, as Go's encoding/json prints and reads it:
    [json_text] is [json.Marshal] on a value, [json_parse] is what
    [json.Unmarshal] makes of a text before it fills Go variables.

    Simplification: a value holds strings as well-formed UTF-8 ([enc_string]),
    so for a Go string that was not, [json_text] prints U+FFFD as its three
    bytes where Go prints a six-byte escape.  Both read alike. *)
From Coq Require Import List NArith ZArith Lia Bool Arith.
From Verif Require Import Base Json.
Import ListNotations.
Local Open Scope nat_scope.

(** ** Printing *)

(** Go library encoding/json (Marshal), called at application/encoding.go:15, 52 and application/config.go:91 *)
Definition digit (n : N) : byte := b8 (48 + n).
(** [strconv]: decimal digits; the fuel exceeds the number of digits. *)
(** Go library encoding/json (Marshal), called at application/encoding.go:15, 52 and application/config.go:91 *)
Fixpoint digits_fuel (fuel : nat) (n : N) : bytes :=
  match fuel with
  | O => []
  | S f => if N.ltb n 10 then [digit n] else digits_fuel f (n / 10) ++ [digit (n mod 10)]
  end.
(** Go library encoding/json (Marshal), called at application/encoding.go:15, 52 and application/config.go:91 *)
Definition decimal (n : N) : bytes := digits_fuel (S (N.size_nat n)) n.
(** Go library encoding/json (Marshal), called at application/encoding.go:15, 52 and application/config.go:91 *)
Definition integer (z : Z) : bytes :=
  if Z.ltb z 0 then x2d :: decimal (Z.to_N (- z)) else decimal (Z.to_N z).

(** hexadecimal digit, lower case *)
(** Go library encoding/json (Marshal), called at application/encoding.go:15, 52 and application/config.go:91 *)
Definition hexdigit (n : N) : byte := b8 (if N.ltb n 10 then 48 + n else 87 + n).
(** [htmlSafeSet] of encoding/json for ASCII *)
(** Go library encoding/json (Marshal), called at application/encoding.go:15, 52 and application/config.go:91 *)
Definition html_safe (b : byte) : bool :=
  in_rng 32 127 b &&
  negb (byte_eqb b x22 || byte_eqb b x26 || byte_eqb b x3c || byte_eqb b x3e || byte_eqb b x5c).
(** [encodeState.string]: one byte below 0x80 *)
(** Go library encoding/json (Marshal), called at application/encoding.go:15, 52 and application/config.go:91 *)
Definition escape1 (b : byte) : bytes :=
  if html_safe b then [b]
  else if byte_eqb b x22 || byte_eqb b x5c then [x5c; b]
  else if byte_eqb b x0a then [x5c; x6e]
  else if byte_eqb b x0d then [x5c; x72]
  else if byte_eqb b x09 then [x5c; x74]
  else [x5c; x75; x30; x30; hexdigit (Byte.to_N b / 16); hexdigit (Byte.to_N b mod 16)].
(** U+2028 and U+2029 (e2 80 a8, e2 80 a9) are escaped as well *)
(** Go library encoding/json (Marshal), called at application/encoding.go:15, 52 and application/config.go:91 *)
Fixpoint escape (s : bytes) : bytes :=
  match s with
  | [] => []
  | b :: s' =>
      if in_rng 0 127 b then escape1 b ++ escape s'
      else if byte_eqb b xe2 then
        match s' with
        | b1 :: b2 :: s'' =>
            if byte_eqb b1 x80 && (byte_eqb b2 xa8 || byte_eqb b2 xa9)
            then [x5c; x75; x32; x30; x32; hexdigit (Byte.to_N b2 mod 16)] ++ escape s''
            else b :: escape s'
        | _ => b :: escape s'
        end
      else b :: escape s'
  end.
(** Go library encoding/json (Marshal), called at application/encoding.go:15, 52 and application/config.go:91 *)
Definition quoted (s : bytes) : bytes := x22 :: escape s ++ [x22].

(** separated by commas *)
(** Go library encoding/json (Marshal), called at application/encoding.go:15, 52 and application/config.go:91 *)
Fixpoint commas (l : list bytes) : bytes :=
  match l with
  | [] => []
  | [x] => x
  | x :: l' => x ++ x2c :: commas l'
  end.
(** Go library encoding/json (Marshal), called at application/encoding.go:15, 52 and application/config.go:91 *)
Fixpoint json_text (j : json) : bytes :=
  match j with
  | JNull => [x6e; x75; x6c; x6c]
  | JBool true => [x74; x72; x75; x65]
  | JBool false => [x66; x61; x6c; x73; x65]
  | JInt z => integer z
  | JNegZero => [x2d; x30]
  | JFrac => [x30; x2e; x35]
  | JStr s => quoted s
  | JArr l => x5b :: commas (map json_text l) ++ [x5d]
  | JObj l => x7b :: commas (map (fun p => quoted (fst p) ++ x3a :: json_text (snd p)) l) ++ [x7d]
  end.

(** ** Reading *)

(** Go library encoding/json (Unmarshal), called at application/encoding.go:26, 63 and application/config.go:79 *)
Definition is_ws (b : byte) : bool := byte_eqb b x20 || byte_eqb b x09 || byte_eqb b x0a || byte_eqb b x0d.
(** Go library encoding/json (Unmarshal), called at application/encoding.go:26, 63 and application/config.go:79 *)
Fixpoint skip_ws (s : bytes) : bytes :=
  match s with b :: s' => if is_ws b then skip_ws s' else s | [] => [] end.

(** Go library encoding/json (Unmarshal), called at application/encoding.go:26, 63 and application/config.go:79 *)
Definition is_digit (b : byte) : bool := in_rng 48 57 b.
(** Go library encoding/json (Unmarshal), called at application/encoding.go:26, 63 and application/config.go:79 *)
Fixpoint span_digits (s : bytes) : bytes * bytes :=
  match s with
  | b :: s' => if is_digit b then let '(d, r) := span_digits s' in (b :: d, r) else ([], s)
  | [] => ([], [])
  end.
(** Go library encoding/json (Unmarshal), called at application/encoding.go:26, 63 and application/config.go:79 *)
Definition digits_value (d : bytes) : N := fold_left (fun a b => a * 10 + (Byte.to_N b - 48))%N d 0%N.

(** the scanner's number grammar; [None]: no number here *)
(** Go library encoding/json (Unmarshal), called at application/encoding.go:26, 63 and application/config.go:79 *)
Definition p_frac (s : bytes) : option (bool * bytes) :=
  match s with
  | b :: s' => if byte_eqb b x2e
               then match span_digits s' with ([], _) => None | (_, r) => Some (true, r) end
               else Some (false, s)
  | [] => Some (false, [])
  end.
(** Go library encoding/json (Unmarshal), called at application/encoding.go:26, 63 and application/config.go:79 *)
Definition p_exp (s : bytes) : option (bool * bytes) :=
  match s with
  | b :: s' =>
      if byte_eqb b x65 || byte_eqb b x45 then
        let s'' := match s' with c :: r => if byte_eqb c x2b || byte_eqb c x2d then r else s' | [] => s' end in
        match span_digits s'' with ([], _) => None | (_, r) => Some (true, r) end
      else Some (false, s)
  | [] => Some (false, [])
  end.
(** Go library encoding/json (Unmarshal), called at application/encoding.go:26, 63 and application/config.go:79 *)
Definition p_number (s : bytes) : option (json * bytes) :=
  let '(neg, s1) := match s with b :: r => if byte_eqb b x2d then (true, r) else (false, s) | [] => (false, s) end in
  let '(d, s2) := span_digits s1 in
  match d with
  | [] => None
  | d0 :: d' =>
      if byte_eqb d0 x30 && negb (match d' with [] => true | _ => false end) then None
      else
        match p_frac s2 with
        | None => None
        | Some (fr, s3) =>
            match p_exp s3 with
            | None => None
            | Some (ex, s4) =>
                let v := digits_value d in
                Some (if fr || ex then JFrac
                      else if neg : bool then (if N.eqb v 0 then JNegZero else JInt (- Z.of_N v))
                      else JInt (Z.of_N v), s4)
            end
        end
  end.

(** strings *)
(** Go library encoding/json (Unmarshal), called at application/encoding.go:26, 63 and application/config.go:79 *)
Definition hexval (b : byte) : option N :=
  if in_rng 48 57 b then Some (Byte.to_N b - 48)%N
  else if in_rng 97 102 b then Some (Byte.to_N b - 87)%N
  else if in_rng 65 70 b then Some (Byte.to_N b - 55)%N
  else None.
(** Go library encoding/json (Unmarshal), called at application/encoding.go:26, 63 and application/config.go:79 *)
Definition hex4 (a b c d : byte) : option N :=
  match hexval a, hexval b, hexval c, hexval d with
  | Some a, Some b, Some c, Some d => Some (((a * 16 + b) * 16 + c) * 16 + d)%N
  | _, _, _, _ => None
  end.
(** [utf8.EncodeRune] *)
(** Go library encoding/json (Unmarshal), called at application/encoding.go:26, 63 and application/config.go:79 *)
Definition utf8_rune (r : N) : bytes :=
  (if N.ltb r 128 then [b8 r]
   else if N.ltb r 2048 then [b8 (192 + r / 64); b8 (128 + r mod 64)]
   else if N.ltb r 65536 then [b8 (224 + r / 4096); b8 (128 + (r / 64) mod 64); b8 (128 + r mod 64)]
   else [b8 (240 + r / 262144); b8 (128 + (r / 4096) mod 64); b8 (128 + (r / 64) mod 64); b8 (128 + r mod 64)])%N.
(** Go library encoding/json (Unmarshal), called at application/encoding.go:26, 63 and application/config.go:79 *)
Definition replacement : bytes := [xef; xbf; xbd].
(** Go library encoding/json (Unmarshal), called at application/encoding.go:26, 63 and application/config.go:79 *)
Definition high_surrogate (r : N) : bool := N.leb 55296 r && N.ltb r 56320.
(** Go library encoding/json (Unmarshal), called at application/encoding.go:26, 63 and application/config.go:79 *)
Definition low_surrogate (r : N) : bool := N.leb 56320 r && N.ltb r 57344.
(** in front of the rest of the string *)
(** Go library encoding/json (Unmarshal), called at application/encoding.go:26, 63 and application/config.go:79 *)
Definition put (w : bytes) (x : option (bytes * bytes)) : option (bytes * bytes) :=
  match x with Some (t, r) => Some (w ++ t, r) | None => None end.
(** [unquote], from after the opening quote: the bytes of the string (bytes
    from 0x80 as they stand) and the rest of the text *)
(** Go library encoding/json (Unmarshal), called at application/encoding.go:26, 63 and application/config.go:79 *)
Fixpoint p_string (s : bytes) : option (bytes * bytes) :=
  match s with
  | [] => None
  | c :: s1 =>
      if byte_eqb c x22 then Some ([], s1)
      else if byte_eqb c x5c then
        match s1 with
        | [] => None
        | e :: s2 =>
            if byte_eqb e x22 || byte_eqb e x5c || byte_eqb e x2f then put [e] (p_string s2)
            else if byte_eqb e x62 then put [x08] (p_string s2)
            else if byte_eqb e x66 then put [x0c] (p_string s2)
            else if byte_eqb e x6e then put [x0a] (p_string s2)
            else if byte_eqb e x72 then put [x0d] (p_string s2)
            else if byte_eqb e x74 then put [x09] (p_string s2)
            else if byte_eqb e x75 then
              match s2 with
              | h1 :: h2 :: h3 :: h4 :: s3 =>
                  match hex4 h1 h2 h3 h4 with
                  | None => None
                  | Some r =>
                      if high_surrogate r then
                        match s3 with
                        | c1 :: c2 :: g1 :: g2 :: g3 :: g4 :: s4 =>
                            match hex4 g1 g2 g3 g4 with
                            | Some r2 =>
                                if byte_eqb c1 x5c && byte_eqb c2 x75 && low_surrogate r2
                                then put (utf8_rune (65536 + (r - 55296) * 1024 + (r2 - 56320))%N) (p_string s4)
                                else put replacement (p_string s3)
                            | None => put replacement (p_string s3)
                            end
                        | _ => put replacement (p_string s3)
                        end
                      else if low_surrogate r then put replacement (p_string s3)
                      else put (utf8_rune r) (p_string s3)
                  end
              | _ => None
              end
            else None
        end
      else if in_rng 0 31 c then None
      else put [c] (p_string s1)
  end.
(** Go library encoding/json (Unmarshal), called at application/encoding.go:26, 63 and application/config.go:79 *)
Definition p_str (s : bytes) : option (bytes * bytes) :=
  match p_string s with Some (t, r) => Some (utf8_coerce t, r) | None => None end.

(** a fixed word *)
(** Go library encoding/json (Unmarshal), called at application/encoding.go:26, 63 and application/config.go:79 *)
Fixpoint p_word (w s : bytes) : option bytes :=
  match w with
  | [] => Some s
  | a :: w' => match s with b :: s' => if byte_eqb a b then p_word w' s' else None | [] => None end
  end.

(** values; [p_elems] and [p_members] start at an element, after white space *)
(** Go library encoding/json (Unmarshal), called at application/encoding.go:26, 63 and application/config.go:79 *)
Fixpoint p_value (fuel : nat) (s : bytes) : option (json * bytes) :=
  match fuel with
  | O => None
  | S f =>
      match skip_ws s with
      | [] => None
      | c :: s1 =>
          if byte_eqb c x22 then
            match p_str s1 with Some (t, r) => Some (JStr t, r) | None => None end
          else if byte_eqb c x5b then
            match skip_ws s1 with
            | [] => None
            | c2 :: s2 =>
                if byte_eqb c2 x5d then Some (JArr [], s2)
                else match p_elems f s1 with Some (l, r) => Some (JArr l, r) | None => None end
            end
          else if byte_eqb c x7b then
            match skip_ws s1 with
            | [] => None
            | c2 :: s2 =>
                if byte_eqb c2 x7d then Some (JObj [], s2)
                else match p_members f s1 with Some (l, r) => Some (JObj l, r) | None => None end
            end
          else if byte_eqb c x74 then
            match p_word [x72; x75; x65] s1 with Some r => Some (JBool true, r) | None => None end
          else if byte_eqb c x66 then
            match p_word [x61; x6c; x73; x65] s1 with Some r => Some (JBool false, r) | None => None end
          else if byte_eqb c x6e then
            match p_word [x75; x6c; x6c] s1 with Some r => Some (JNull, r) | None => None end
          else p_number (c :: s1)
      end
  end
with p_elems (fuel : nat) (s : bytes) : option (list json * bytes) :=
  match fuel with
  | O => None
  | S f =>
      match p_value f s with
      | None => None
      | Some (j, r) =>
          match skip_ws r with
          | [] => None
          | c :: r1 =>
              if byte_eqb c x5d then Some ([j], r1)
              else if byte_eqb c x2c then
                match p_elems f r1 with Some (l, r2) => Some (j :: l, r2) | None => None end
              else None
          end
      end
  end
with p_members (fuel : nat) (s : bytes) : option (list (bytes * json) * bytes) :=
  match fuel with
  | O => None
  | S f =>
      match skip_ws s with
      | [] => None
      | q :: s1 =>
          if byte_eqb q x22 then
            match p_str s1 with
            | None => None
            | Some (k, r0) =>
                match skip_ws r0 with
                | [] => None
                | col :: r1 =>
                    if byte_eqb col x3a then
                      match p_value f r1 with
                      | None => None
                      | Some (j, r) =>
                          match skip_ws r with
                          | [] => None
                          | c :: r2 =>
                              if byte_eqb c x7d then Some ([(k, j)], r2)
                              else if byte_eqb c x2c then
                                match p_members f r2 with Some (l, r3) => Some ((k, j) :: l, r3) | None => None end
                              else None
                          end
                      end
                    else None
                end
            end
          else None
      end
  end.
(** the whole text is one value; the fuel is enough for every text
    ([parse_fuel]) *)
(** Go library encoding/json (Unmarshal), called at application/encoding.go:26, 63 and application/config.go:79 *)
Definition parse_with (fuel : nat) (s : bytes) : option json :=
  match p_value fuel s with
  | Some (j, r) => match skip_ws r with [] => Some j | _ => None end
  | None => None
  end.
(** Go library encoding/json (Unmarshal), called at application/encoding.go:26, 63 and application/config.go:79 *)
Definition json_parse (s : bytes) : option json := parse_with (2 * length s + 2) s.

(** ** Facts *)

Lemma skip_ws_len s : length (skip_ws s) <= length s.
Proof. induction s as [|b s IH]; cbn [skip_ws length]; [lia|]. destruct (is_ws b); cbn [length]; lia. Qed.
Lemma skip_ws_app s t : skip_ws s <> [] -> skip_ws (s ++ t) = skip_ws s ++ t.
Proof.
  induction s as [|b s IH]; cbn [skip_ws app]; [congruence|]. destruct (is_ws b); [exact IH|reflexivity].
Qed.
Lemma skip_ws_app_nil s t : skip_ws s = [] -> skip_ws (s ++ t) = skip_ws t.
Proof. induction s as [|b s IH]; cbn [skip_ws app]; [reflexivity|]. destruct (is_ws b); [exact IH|discriminate]. Qed.
Lemma skip_ws_cons_app s c r t : skip_ws s = c :: r -> skip_ws (s ++ t) = c :: r ++ t.
Proof. intro H. rewrite skip_ws_app by (rewrite H; discriminate). rewrite H. reflexivity. Qed.
Lemma skip_ws_cons_len s c r : skip_ws s = c :: r -> length r < length s.
Proof. intro H. pose proof (skip_ws_len s) as L. rewrite H in L. cbn [length] in L. lia. Qed.

Lemma span_len s : length (snd (span_digits s)) <= length s /\ length (fst (span_digits s)) + length (snd (span_digits s)) = length s.
Proof.
  induction s as [|b s IH]; [split; reflexivity|]. cbn [span_digits]. destruct (is_digit b); [|cbn [fst snd length]; lia].
  destruct (span_digits s) as [d r]. cbn [fst snd length] in *. lia.
Qed.
(** digits followed by something that is not a digit *)
(** no line of its own in /repo: proof helper *)
Definition no_digit (s : bytes) : Prop := match s with b :: _ => is_digit b = false | [] => True end.
Lemma span_app d s : Forall (fun b => is_digit b = true) d -> no_digit s -> span_digits (d ++ s) = (d, s).
Proof.
  induction 1 as [|b d B F IH]; intro N; cbn [app span_digits].
  - destruct s as [|c s]; [reflexivity|]. cbn [no_digit] in N. cbn [span_digits]. rewrite N. reflexivity.
  - rewrite B, IH by exact N. reflexivity.
Qed.
Lemma span_grow s t : snd (span_digits s) <> [] -> span_digits (s ++ t) = (fst (span_digits s), snd (span_digits s) ++ t).
Proof.
  induction s as [|b s IH]; cbn [span_digits app]; [cbn; congruence|]. destruct (is_digit b); [|reflexivity].
  destruct (span_digits s) as [d r] eqn:E. cbn [snd fst] in *. intro N. rewrite IH by exact N. reflexivity.
Qed.
Lemma span_facts s : Forall (fun b => is_digit b = true) (fst (span_digits s)) /\ no_digit (snd (span_digits s)) /\
  s = fst (span_digits s) ++ snd (span_digits s).
Proof.
  induction s as [|b s IH]; [repeat split; constructor|]. cbn [span_digits]. destruct (is_digit b) eqn:E.
  - destruct (span_digits s) as [d r]. cbn [fst snd app] in *. destruct IH as (A & B & ->). repeat split; [constructor; assumption|exact B].
  - cbn [fst snd no_digit app]. repeat split; [constructor|exact E].
Qed.

(** *** Lengths: every reader leaves a shorter rest *)
Ltac inv H := inversion H; subst; clear H.

Lemma p_frac_len s b r : p_frac s = Some (b, r) -> length r <= length s.
Proof.
  destruct s as [|c s]; cbn [p_frac]; intro H; [inv H; cbn; lia|].
  destruct (byte_eqb c x2e); [|inv H; lia]. pose proof (span_len s) as L.
  destruct (span_digits s) as [[|d0 d] r']; [discriminate H|]. inv H. cbn [fst snd length] in *. lia.
Qed.
Lemma p_exp_len s b r : p_exp s = Some (b, r) -> length r <= length s.
Proof.
  destruct s as [|c s]; cbn [p_exp]; intro H; [inv H; cbn; lia|].
  destruct (byte_eqb c x65 || byte_eqb c x45); [|inv H; lia].
  set (s' := match s with [] => s | c :: r => if byte_eqb c x2b || byte_eqb c x2d then r else s end) in *.
  assert (L' : length s' <= length s).
  { unfold s'. destruct s as [|c' s]; [lia|]. destruct (_ || _); cbn [length]; lia. }
  pose proof (span_len s') as L.
  destruct (span_digits s') as [[|d0 d] r']; [discriminate H|]. inv H. cbn [fst snd length] in *. lia.
Qed.
Lemma p_number_len s j r : p_number s = Some (j, r) -> length r < length s.
Proof.
  unfold p_number.
  set (x := match s with [] => (false, s) | b :: r0 => if byte_eqb b x2d then (true, r0) else (false, s) end).
  assert (X : length (snd x) <= length s).
  { unfold x. destruct s as [|b s]; [cbn; lia|]. destruct (byte_eqb b x2d); cbn [snd length]; lia. }
  destruct x as [neg s1]. cbn [snd] in X. pose proof (span_len s1) as L. destruct (span_digits s1) as [d s2]. cbn [fst snd] in L.
  destruct d as [|d0 d]; [discriminate|]. destruct (_ && _); [discriminate|].
  destruct (p_frac s2) as [[fr s3]|] eqn:F; [|discriminate]. apply p_frac_len in F.
  destruct (p_exp s3) as [[ex s4]|] eqn:E; [|discriminate]. apply p_exp_len in E.
  intro H. inv H. cbn [length] in L. lia.
Qed.

Lemma put_some w x t r : put w x = Some (t, r) -> exists t', x = Some (t', r) /\ t = w ++ t'.
Proof. destruct x as [[t' r']|]; intro H; inv H. exists t'. auto. Qed.

(** Induction along [p_string]. *)
Lemma p_string_ind2 (P : bytes -> Prop) :
  (forall s, (forall t, length t < length s -> P t) -> P s) -> forall s, P s.
Proof. intro H. intro s. remember (length s) as n eqn:E. revert s E. induction n as [n IH] using lt_wf_ind. intros s ->. apply H. intros t L. apply (IH (length t)); auto. Qed.

Ltac bools :=
  repeat match goal with
  | H : context [if ?b then _ else _] |- _ => destruct b eqn:?
  | H : context [match ?x with Some _ => _ | None => _ end] |- _ =>
      match x with hex4 _ _ _ _ => destruct x eqn:? end
  end.

Lemma p_string_len : forall s t r, p_string s = Some (t, r) -> length r < length s.
Proof.
  apply (p_string_ind2 (fun s => forall t r, p_string s = Some (t, r) -> length r < length s)).
  intros s IH t r H.
  assert (PUT : forall w s' t r, length s' < length s -> put w (p_string s') = Some (t, r) -> length r < length s).
  { intros w s' t' r' L K. apply put_some in K as (t'' & K & _). apply IH in K; lia. }
  destruct s as [|c s1]; [discriminate H|]. cbn [p_string] in H.
  destruct (byte_eqb c x22); [inv H; cbn; lia|].
  destruct (byte_eqb c x5c).
  - destruct s1 as [|e s2]; [discriminate H|].
    repeat match type of H with (if ?b then _ else _) = _ => destruct b end;
      try (eapply PUT with (2 := H); cbn [length]; lia); [|discriminate H].
    destruct s2 as [|h1 [|h2 [|h3 [|h4 s3]]]]; try discriminate H.
    destruct (hex4 h1 h2 h3 h4) as [rn|]; [|discriminate H].
    destruct (high_surrogate rn).
    + destruct s3 as [|c1 [|c2 [|g1 [|g2 [|g3 [|g4 s4]]]]]];
        try (eapply PUT with (2 := H); cbn [length]; lia).
      destruct (hex4 g1 g2 g3 g4) as [r2|]; [|eapply PUT; [|exact H]; cbn [length]; lia].
      destruct (_ && _); (eapply PUT with (2 := H); cbn [length]; lia).
    + destruct (low_surrogate rn); (eapply PUT with (2 := H); cbn [length]; lia).
  - destruct (in_rng 0 31 c); [discriminate H|]. eapply PUT; [|exact H]; cbn [length]; lia.
Qed.
Lemma p_str_len s t r : p_str s = Some (t, r) -> length r < length s.
Proof. unfold p_str. destruct (p_string s) as [[t' r']|] eqn:E; intro H; inv H. apply p_string_len in E. exact E. Qed.
Lemma p_word_len w s r : p_word w s = Some r -> length r <= length s.
Proof.
  revert s. induction w as [|a w IH]; intros s H; cbn [p_word] in H; [inv H; lia|].
  destruct s as [|b s]; [discriminate H|]. destruct (byte_eqb a b); [|discriminate H]. apply IH in H. cbn; lia.
Qed.

Lemma p_len fuel :
  (forall s j r, p_value fuel s = Some (j, r) -> length r < length s) /\
  (forall s l r, p_elems fuel s = Some (l, r) -> length r < length s) /\
  (forall s l r, p_members fuel s = Some (l, r) -> length r < length s).
Proof.
  induction fuel as [|f (IV & IE & IM)]; [repeat split; discriminate|]. split; [|split].
  - intros s j r H. cbn [p_value] in H. destruct (skip_ws s) as [|c s1] eqn:W; [discriminate H|]. apply skip_ws_cons_len in W.
    destruct (byte_eqb c x22).
    { destruct (p_str s1) as [[t r']|] eqn:E; inv H. apply p_str_len in E. lia. }
    destruct (byte_eqb c x5b).
    { destruct (skip_ws s1) as [|c2 s2] eqn:W1; [discriminate H|]. apply skip_ws_cons_len in W1.
      destruct (byte_eqb c2 x5d); [inv H; lia|].
      destruct (p_elems f s1) as [[l r']|] eqn:E; inv H. apply IE in E. lia. }
    destruct (byte_eqb c x7b).
    { destruct (skip_ws s1) as [|c2 s2] eqn:W1; [discriminate H|]. apply skip_ws_cons_len in W1.
      destruct (byte_eqb c2 x7d); [inv H; lia|].
      destruct (p_members f s1) as [[l r']|] eqn:E; inv H. apply IM in E. lia. }
    destruct (byte_eqb c x74). { destruct (p_word _ s1) eqn:E; inv H. apply p_word_len in E. lia. }
    destruct (byte_eqb c x66). { destruct (p_word _ s1) eqn:E; inv H. apply p_word_len in E. lia. }
    destruct (byte_eqb c x6e). { destruct (p_word _ s1) eqn:E; inv H. apply p_word_len in E. lia. }
    apply p_number_len in H. cbn [length] in H. lia.
  - intros s l r H. cbn [p_elems] in H. destruct (p_value f s) as [[j r0]|] eqn:E; [|discriminate H]. apply IV in E.
    destruct (skip_ws r0) as [|c r1] eqn:W; [discriminate H|]. apply skip_ws_cons_len in W.
    destruct (byte_eqb c x5d); [inv H; lia|]. destruct (byte_eqb c x2c); [|discriminate H].
    destruct (p_elems f r1) as [[l' r2]|] eqn:E2; inv H. apply IE in E2. lia.
  - intros s l r H. cbn [p_members] in H. destruct (skip_ws s) as [|q s1] eqn:W; [discriminate H|]. apply skip_ws_cons_len in W.
    destruct (byte_eqb q x22); [|discriminate H]. destruct (p_str s1) as [[k r0]|] eqn:E; [|discriminate H]. apply p_str_len in E.
    destruct (skip_ws r0) as [|col r1] eqn:W1; [discriminate H|]. apply skip_ws_cons_len in W1.
    destruct (byte_eqb col x3a); [|discriminate H].
    destruct (p_value f r1) as [[j r']|] eqn:E1; [|discriminate H]. apply IV in E1.
    destruct (skip_ws r') as [|c r2] eqn:W2; [discriminate H|]. apply skip_ws_cons_len in W2.
    destruct (byte_eqb c x7d); [inv H; lia|]. destruct (byte_eqb c x2c); [|discriminate H].
    destruct (p_members f r2) as [[l' r3]|] eqn:E2; inv H. apply IM in E2. lia.
Qed.

(** *** The fuel does not matter *)
Lemma fuel_enough : forall n s,
  length s <= n -> forall f f',
  (2 * length s + 2 <= f -> 2 * length s + 2 <= f' -> p_value f s = p_value f' s) /\
  (2 * length s + 3 <= f -> 2 * length s + 3 <= f' -> p_elems f s = p_elems f' s) /\
  (2 * length s + 3 <= f -> 2 * length s + 3 <= f' -> p_members f s = p_members f' s).
Proof.
  induction n as [n IH] using lt_wf_ind. intros s L f f'.
  assert (V : forall f f', 2 * length s + 2 <= f -> 2 * length s + 2 <= f' -> p_value f s = p_value f' s).
  { clear f f'. intros f f' A B. destruct f as [|f]; [lia|]. destruct f' as [|f']; [lia|]. cbn [p_value].
    destruct (skip_ws s) as [|c s1] eqn:W; [reflexivity|]. apply skip_ws_cons_len in W.
    assert (K : length s1 < n) by lia. pose proof (IH _ K s1 (le_n _)) as I1.
    destruct (I1 f f') as (_ & E2 & E3). rewrite E2, E3 by lia. reflexivity. }
  split; [apply V|split]; intros A B; (destruct f as [|f]; [lia|]; destruct f' as [|f']; [lia|]).
  - cbn [p_elems]. rewrite (V f f') by lia. destruct (p_value f' s) as [[j r]|] eqn:E; [|reflexivity].
    apply (proj1 (p_len f')) in E. destruct (skip_ws r) as [|c r1] eqn:W; [reflexivity|]. apply skip_ws_cons_len in W.
    assert (K : length r1 < n) by lia. destruct (IH _ K r1 (le_n _) f f') as (_ & E2 & _). rewrite E2 by lia. reflexivity.
  - cbn [p_members]. destruct (skip_ws s) as [|q s1] eqn:W; [reflexivity|]. apply skip_ws_cons_len in W.
    destruct (byte_eqb q x22); [|reflexivity]. destruct (p_str s1) as [[k r0]|] eqn:E; [|reflexivity]. apply p_str_len in E.
    destruct (skip_ws r0) as [|col r1] eqn:W1; [reflexivity|]. apply skip_ws_cons_len in W1.
    destruct (byte_eqb col x3a); [|reflexivity].
    assert (K : length r1 < n) by lia. destruct (IH _ K r1 (le_n _) f f') as (E1 & _ & _). rewrite E1 by lia.
    destruct (p_value f' r1) as [[j r']|] eqn:E'; [|reflexivity]. apply (proj1 (p_len f')) in E'.
    destruct (skip_ws r') as [|c r2] eqn:W2; [reflexivity|]. apply skip_ws_cons_len in W2.
    assert (K2 : length r2 < n) by lia. destruct (IH _ K2 r2 (le_n _) f f') as (_ & _ & E3). rewrite E3 by lia. reflexivity.
Qed.
Lemma parse_fuel s f : 2 * length s + 2 <= f -> parse_with f s = json_parse s.
Proof.
  intro H. unfold json_parse, parse_with.
  destruct (fuel_enough _ s (le_n _) f (2 * length s + 2)) as (E & _ & _). rewrite E by lia. reflexivity.
Qed.

(** *** Appending to a text that parses *)
Lemma p_string_short c1 c2 s : length s < 4 -> byte_eqb c1 x5c && byte_eqb c2 x75 = true -> p_string (c1 :: c2 :: s) = None.
Proof.
  intros L H. apply andb_true_iff in H as [H1 H2]. apply byte_eqb_eq in H1, H2. subst.
  destruct s as [|a [|b [|c [|d s]]]]; try reflexivity. cbn [length] in L. lia.
Qed.
Lemma p_string_app : forall s t r u, p_string s = Some (t, r) -> p_string (s ++ u) = Some (t, r ++ u).
Proof.
  apply (p_string_ind2 (fun s => forall t r u, p_string s = Some (t, r) -> p_string (s ++ u) = Some (t, r ++ u))).
  intros s IH t r u H.
  assert (PUT : forall w s' t r, length s' < length s -> put w (p_string s') = Some (t, r) ->
                put w (p_string (s' ++ u)) = Some (t, r ++ u)).
  { intros w s' t' r' L K. apply put_some in K as (t'' & K & ->). rewrite (IH s' L _ _ u K). reflexivity. }
  destruct s as [|c s1]; [discriminate H|]. cbn [p_string app] in H |- *.
  destruct (byte_eqb c x22); [inv H; reflexivity|].
  destruct (byte_eqb c x5c).
  - destruct s1 as [|e s2]; [discriminate H|]. cbn [app].
    repeat match type of H with (if ?b then _ else _) = _ => destruct b end;
      try (apply PUT; [cbn [length]; lia|exact H]); [|discriminate H].
    destruct s2 as [|h1 [|h2 [|h3 [|h4 s3]]]]; try discriminate H. cbn [app].
    destruct (hex4 h1 h2 h3 h4) as [rn|]; [|discriminate H].
    destruct (high_surrogate rn).
    + assert (G : forall c1 c2 s', byte_eqb c1 x5c && byte_eqb c2 x75 = false ->
         match c1 :: c2 :: s' with
         | c1 :: c2 :: g1 :: g2 :: g3 :: g4 :: s4 =>
             match hex4 g1 g2 g3 g4 with
             | Some r2 =>
                 if byte_eqb c1 x5c && byte_eqb c2 x75 && low_surrogate r2
                 then put (utf8_rune (65536 + (rn - 55296) * 1024 + (r2 - 56320))%N) (p_string s4)
                 else put replacement (p_string (c1 :: c2 :: s'))
             | None => put replacement (p_string (c1 :: c2 :: s'))
             end
         | _ => put replacement (p_string (c1 :: c2 :: s'))
         end = put replacement (p_string (c1 :: c2 :: s'))).
      { intros c1 c2 s' N. destruct s' as [|g1 [|g2 [|g3 [|g4 s4]]]]; try reflexivity.
        destruct (hex4 g1 g2 g3 g4) as [r2|]; [|reflexivity]. rewrite N. reflexivity. }
      assert (SH : forall c1 c2 s', length s' < 4 -> length (c1 :: c2 :: s') < length (c :: e :: h1 :: h2 :: h3 :: h4 :: s3) ->
         put replacement (p_string (c1 :: c2 :: s')) = Some (t, r) ->
         match c1 :: c2 :: s' ++ u with
         | c1 :: c2 :: g1 :: g2 :: g3 :: g4 :: s4 =>
             match hex4 g1 g2 g3 g4 with
             | Some r2 =>
                 if byte_eqb c1 x5c && byte_eqb c2 x75 && low_surrogate r2
                 then put (utf8_rune (65536 + (rn - 55296) * 1024 + (r2 - 56320))%N) (p_string s4)
                 else put replacement (p_string (c1 :: c2 :: s' ++ u))
             | None => put replacement (p_string (c1 :: c2 :: s' ++ u))
             end
         | _ => put replacement (p_string (c1 :: c2 :: s' ++ u))
         end = Some (t, r ++ u)).
      { intros c1 c2 s' L4 L K. rewrite G.
        - apply PUT with (s' := c1 :: c2 :: s'); [exact L|exact K].
        - destruct (byte_eqb c1 x5c && byte_eqb c2 x75) eqn:N; [|reflexivity].
          rewrite (p_string_short c1 c2 s' L4 N) in K. discriminate K. }
      destruct s3 as [|c1 [|c2 s']].
      * apply put_some in H as (t' & H & _). discriminate H.
      * destruct (byte_eqb c1 x22) eqn:Q.
        { apply byte_eqb_eq in Q. subst c1. cbn [app].
          pose proof (PUT replacement [x22] t r ltac:(cbn [length]; lia) H) as K. cbn [app] in K.
          destruct u as [|c2 u]; [exact K|]. rewrite G by reflexivity. exact K. }
        { exfalso. apply put_some in H as (t' & H & _). cbn [p_string] in H. rewrite Q in H.
          destruct (byte_eqb c1 x5c); [discriminate H|]. destruct (in_rng 0 31 c1); discriminate H. }
      * change ((c1 :: c2 :: s') ++ u) with (c1 :: c2 :: s' ++ u).
        destruct (le_lt_dec 4 (length s')) as [G4|G4].
        2: { apply (SH c1 c2 s'); [exact G4|cbn [length]; lia|].
             destruct s' as [|g1 [|g2 [|g3 [|g4 s4]]]]; try exact H. cbn [length] in G4. lia. }
        destruct s' as [|g1 [|g2 [|g3 [|g4 s4]]]]; try (cbn [length] in G4; lia).
        cbn [app]. destruct (hex4 g1 g2 g3 g4) as [r2|].
        { destruct (_ && _); [apply PUT; [cbn [length]; lia|exact H]|].
          apply (PUT replacement (c1 :: c2 :: g1 :: g2 :: g3 :: g4 :: s4)); [cbn [length]; lia|exact H]. }
        { apply (PUT replacement (c1 :: c2 :: g1 :: g2 :: g3 :: g4 :: s4)); [cbn [length]; lia|exact H]. }
    + destruct (low_surrogate rn); (apply PUT; [cbn [length]; lia|exact H]).
  - destruct (in_rng 0 31 c); [discriminate H|]. apply PUT; [cbn [length]; lia|exact H].
Qed.
Lemma p_str_app s t r u : p_str s = Some (t, r) -> p_str (s ++ u) = Some (t, r ++ u).
Proof.
  unfold p_str. destruct (p_string s) as [[t' r']|] eqn:E; intro H; inv H.
  rewrite (p_string_app _ _ _ u E). reflexivity.
Qed.
Lemma p_word_app w s r u : p_word w s = Some r -> p_word w (s ++ u) = Some (r ++ u).
Proof.
  revert s. induction w as [|a w IH]; intros s H; cbn [p_word] in *; [inv H; reflexivity|].
  destruct s as [|b s]; [discriminate H|]. cbn [app]. destruct (byte_eqb a b); [|discriminate H]. apply IH. exact H.
Qed.
Lemma p_frac_app s b r u : p_frac s = Some (b, r) -> r <> [] -> p_frac (s ++ u) = Some (b, r ++ u).
Proof.
  destruct s as [|c s]; cbn [p_frac app]; intros H N; [inv H; congruence|].
  destruct (byte_eqb c x2e); [|inv H; reflexivity].
  destruct (span_digits s) as [d r'] eqn:E. destruct d as [|d0 d]; [discriminate H|]. inv H.
  rewrite span_grow; rewrite E; [reflexivity|exact N].
Qed.
Lemma p_exp_app s b r u : p_exp s = Some (b, r) -> r <> [] -> p_exp (s ++ u) = Some (b, r ++ u).
Proof.
  destruct s as [|c s]; cbn [p_exp app]; intros H N; [inv H; congruence|].
  destruct (byte_eqb c x65 || byte_eqb c x45); [|inv H; reflexivity].
  destruct s as [|c' s]; [discriminate H|]. cbn [app].
  destruct (byte_eqb c' x2b || byte_eqb c' x2d).
  - destruct (span_digits s) as [d r'] eqn:E. destruct d as [|d0 d]; [discriminate H|]. inv H.
    rewrite span_grow; rewrite E; [reflexivity|exact N].
  - destruct (span_digits (c' :: s)) as [d r'] eqn:E. destruct d as [|d0 d]; [discriminate H|]. inv H.
    change (c' :: s ++ u) with ((c' :: s) ++ u).
    rewrite span_grow; rewrite E; [reflexivity|exact N].
Qed.
Lemma p_number_app s j r u : p_number s = Some (j, r) -> r <> [] -> p_number (s ++ u) = Some (j, r ++ u).
Proof.
  intros H N. unfold p_number in *.
  assert (X : forall s u : bytes, s <> [] ->
     match s ++ u with [] => (false, s ++ u) | b :: r0 => if byte_eqb b x2d then (true, r0) else (false, s ++ u) end =
     let '(n, s1) := match s with [] => (false, s) | b :: r0 => if byte_eqb b x2d then (true, r0) else (false, s) end in (n, s1 ++ u)).
  { intros [|b s'] u' NE; [congruence|]. cbn [app]. destruct (byte_eqb b x2d); reflexivity. }
  destruct s as [|b s]; [discriminate H|]. rewrite X by discriminate. clear X.
  destruct (match b :: s with [] => (false, b :: s) | b0 :: r0 => if byte_eqb b0 x2d then (true, r0) else (false, b :: s) end) as [neg s1].
  destruct (span_digits s1) as [d s2] eqn:E. destruct d as [|d0 d]; [discriminate H|].
  destruct (_ && _) eqn:Z; [discriminate H|].
  destruct (p_frac s2) as [[fr s3]|] eqn:F; [|discriminate H].
  destruct (p_exp s3) as [[ex s4]|] eqn:Ex; [|discriminate H]. inv H.
  assert (N3 : s3 <> []). { intros ->. cbn in Ex. inv Ex. congruence. }
  assert (N2 : s2 <> []). { intros ->. cbn in F. inv F. congruence. }
  rewrite span_grow; rewrite E; [|exact N2]. cbn [fst snd]. rewrite Z.
  rewrite (p_frac_app _ _ _ u F N3), (p_exp_app _ _ _ u Ex N). reflexivity.
Qed.

(** no line of its own in /repo: proof helper *)
Definition not_number (j : json) : Prop := match j with JInt _ | JNegZero | JFrac => False | _ => True end.
Lemma p_number_number s j r : p_number s = Some (j, r) -> ~ not_number j.
Proof.
  unfold p_number. destruct (match s with [] => _ | _ :: _ => _ end) as [neg s1]. destruct (span_digits s1) as [[|d0 d] s2]; [discriminate|].
  destruct (_ && _); [discriminate|]. destruct (p_frac s2) as [[fr s3]|]; [|discriminate]. destruct (p_exp s3) as [[ex s4]|]; [|discriminate].
  intro H. inv H. destruct (fr || ex); [exact (fun x => x)|]. destruct neg; [destruct (N.eqb _ 0)|]; exact (fun x => x).
Qed.

Lemma p_app fuel u :
  (forall s j r, p_value fuel s = Some (j, r) -> not_number j \/ r <> [] -> p_value fuel (s ++ u) = Some (j, r ++ u)) /\
  (forall s l r, p_elems fuel s = Some (l, r) -> p_elems fuel (s ++ u) = Some (l, r ++ u)) /\
  (forall s l r, p_members fuel s = Some (l, r) -> p_members fuel (s ++ u) = Some (l, r ++ u)).
Proof.
  induction fuel as [|f (IV & IE & IM)]; [repeat split; discriminate|]. split; [|split].
  - intros s j r H C. cbn [p_value] in H |- *. destruct (skip_ws s) as [|c s1] eqn:W; [discriminate H|].
    rewrite (skip_ws_cons_app _ _ _ u W).
    destruct (byte_eqb c x22).
    { destruct (p_str s1) as [[t r']|] eqn:E; inv H. rewrite (p_str_app _ _ _ u E). reflexivity. }
    destruct (byte_eqb c x5b).
    { destruct (skip_ws s1) as [|c2 s2] eqn:W1; [discriminate H|]. rewrite (skip_ws_cons_app _ _ _ u W1).
      destruct (byte_eqb c2 x5d); [inv H; reflexivity|].
      destruct (p_elems f s1) as [[l r']|] eqn:E; inv H. rewrite (IE _ _ _ E). reflexivity. }
    destruct (byte_eqb c x7b).
    { destruct (skip_ws s1) as [|c2 s2] eqn:W1; [discriminate H|]. rewrite (skip_ws_cons_app _ _ _ u W1).
      destruct (byte_eqb c2 x7d); [inv H; reflexivity|].
      destruct (p_members f s1) as [[l r']|] eqn:E; inv H. rewrite (IM _ _ _ E). reflexivity. }
    destruct (byte_eqb c x74). { destruct (p_word _ s1) eqn:E; inv H. rewrite (p_word_app _ _ _ u E). reflexivity. }
    destruct (byte_eqb c x66). { destruct (p_word _ s1) eqn:E; inv H. rewrite (p_word_app _ _ _ u E). reflexivity. }
    destruct (byte_eqb c x6e). { destruct (p_word _ s1) eqn:E; inv H. rewrite (p_word_app _ _ _ u E). reflexivity. }
    change (c :: s1 ++ u) with ((c :: s1) ++ u). apply p_number_app; [exact H|].
    destruct C as [C|C]; [destruct (p_number_number _ _ _ H C)|exact C].
  - intros s l r H. cbn [p_elems] in H |- *. destruct (p_value f s) as [[j r0]|] eqn:E; [|discriminate H].
    destruct (skip_ws r0) as [|c r1] eqn:W; [discriminate H|].
    rewrite (IV _ _ _ E) by (right; intros ->; discriminate W). rewrite (skip_ws_cons_app _ _ _ u W).
    destruct (byte_eqb c x5d); [inv H; reflexivity|]. destruct (byte_eqb c x2c); [|discriminate H].
    destruct (p_elems f r1) as [[l' r2]|] eqn:E2; inv H. rewrite (IE _ _ _ E2). reflexivity.
  - intros s l r H. cbn [p_members] in H |- *. destruct (skip_ws s) as [|q s1] eqn:W; [discriminate H|].
    rewrite (skip_ws_cons_app _ _ _ u W).
    destruct (byte_eqb q x22); [|discriminate H]. destruct (p_str s1) as [[k r0]|] eqn:E; [|discriminate H].
    rewrite (p_str_app _ _ _ u E).
    destruct (skip_ws r0) as [|col r1] eqn:W1; [discriminate H|]. rewrite (skip_ws_cons_app _ _ _ u W1).
    destruct (byte_eqb col x3a); [|discriminate H].
    destruct (p_value f r1) as [[j r']|] eqn:E1; [|discriminate H].
    destruct (skip_ws r') as [|c r2] eqn:W2; [discriminate H|].
    rewrite (IV _ _ _ E1) by (right; intros ->; discriminate W2). rewrite (skip_ws_cons_app _ _ _ u W2).
    destruct (byte_eqb c x7d); [inv H; reflexivity|]. destruct (byte_eqb c x2c); [|discriminate H].
    destruct (p_members f r2) as [[l' r3]|] eqn:E2; inv H. rewrite (IM _ _ _ E2). reflexivity.
Qed.

(** A text that ends a value other than a number cannot be cut short. *)
Lemma no_prefix s u j k : not_number j -> json_parse s = Some j -> json_parse (s ++ u) = Some k ->
  k = j /\ skip_ws u = [].
Proof.
  intros NN P Q. rewrite <- (parse_fuel s (2 * length (s ++ u) + 2)) in P by (rewrite app_length; lia).
  unfold json_parse in Q. unfold parse_with in *.
  destruct (p_value _ s) as [[j' r]|] eqn:E; [|discriminate P]. destruct (skip_ws r) eqn:W; [|discriminate P]. inv P.
  rewrite (proj1 (p_app _ u) _ _ _ E (or_introl NN)) in Q.
  destruct (skip_ws (r ++ u)) eqn:W2; [|discriminate Q]. inv Q. split; [reflexivity|].
  rewrite (skip_ws_app_nil _ _ W) in W2. exact W2.
Qed.

(** *** Reading what was printed *)
Lemma digit_facts n : (n < 10)%N -> is_digit (digit n) = true /\ Byte.to_N (digit n) = (48 + n)%N.
Proof.
  intro H. assert (In n [0;1;2;3;4;5;6;7;8;9]%N) as K.
  { cbn. lia. }
  repeat (destruct K as [<-|K]; [split; reflexivity|]). destruct K.
Qed.
Lemma digits_value_snoc d b : digits_value (d ++ [b]) = (digits_value d * 10 + (Byte.to_N b - 48))%N.
Proof. unfold digits_value. rewrite fold_left_app. reflexivity. Qed.
Lemma digits_fuel_ok f n : (n < 10 ^ N.of_nat f)%N ->
  Forall (fun b => is_digit b = true) (digits_fuel f n) /\ digits_value (digits_fuel f n) = n /\
  (forall k, (0 < k)%nat -> (n < 10 ^ N.of_nat k)%N -> length (digits_fuel f n) <= k) /\
  (f <> 0%nat -> exists d l, digits_fuel f n = d :: l /\ (l <> [] -> byte_eqb d x30 = false)).
Proof.
  revert n. induction f as [|f IH]; intros n H.
  - change (10 ^ N.of_nat 0)%N with 1%N in H. assert (n = 0%N) as -> by lia.
    repeat split; [constructor|intros; cbn; lia|congruence].
  - cbn [digits_fuel]. destruct (N.ltb_spec n 10) as [L|L].
    + destruct (digit_facts n L) as [A B]. repeat split.
      * repeat constructor. exact A.
      * change (digits_value [digit n]) with (0 * 10 + (Byte.to_N (digit n) - 48))%N. rewrite B. lia.
      * intros k K _. cbn. lia.
      * intros _. exists (digit n), []. split; [reflexivity|congruence].
    + assert (M : (n mod 10 < 10)%N) by (apply N.mod_lt; lia).
      assert (Q : (n / 10 < 10 ^ N.of_nat f)%N).
      { apply N.div_lt_upper_bound; [lia|]. rewrite Nat2N.inj_succ, N.pow_succ_r' in H. exact H. }
      destruct (digit_facts _ M) as [A B]. destruct (IH _ Q) as (F & V & Ln & Hd). repeat split.
      * apply Forall_app. split; [exact F|]. repeat constructor. exact A.
      * rewrite digits_value_snoc, V, B. pose proof (N.div_mod n 10 ltac:(lia)) as DM. clear - DM. set (q := (n / 10)%N) in *. set (m := (n mod 10)%N) in *. clearbody q m. lia.
      * intros k K Hk. rewrite app_length. cbn [length]. destruct k as [|[|k]]; [lia| |].
        { change (10 ^ N.of_nat 1)%N with 10%N in Hk. lia. }
        assert (Qk : (n / 10 < 10 ^ N.of_nat (S k))%N).
        { apply N.div_lt_upper_bound; [lia|]. rewrite Nat2N.inj_succ, N.pow_succ_r' in Hk. exact Hk. }
        specialize (Ln (S k) ltac:(lia) Qk). lia.
      * intros _. destruct f as [|f].
        { change (10 ^ N.of_nat 0)%N with 1%N in Q. assert (n / 10 = 0)%N by lia. apply N.div_small_iff in H0; lia. }
        destruct (Hd ltac:(lia)) as (d & l & E & Hz). rewrite E. exists d, (l ++ [digit (n mod 10)]).
        split; [reflexivity|]. intros _. destruct l as [|x l]; [|apply Hz; discriminate].
        (* one digit, and n/10 is not zero *)
        rewrite E in V. change (digits_value [d]) with (0 * 10 + (Byte.to_N d - 48))%N in V.
        destruct (byte_eqb d x30) eqn:Z; [|reflexivity]. apply byte_eqb_eq in Z. subst d.
        change (Byte.to_N x30) with 48%N in V. assert (n / 10 = 0)%N by lia. apply N.div_small_iff in H0; lia.
Qed.
Lemma size_pow n : (n < 10 ^ N.of_nat (S (N.size_nat n)))%N.
Proof.
  assert (A : (n < 2 ^ N.of_nat (S (N.size_nat n)))%N).
  { destruct n as [|p]; [reflexivity|].
    assert (G : forall p, (N.pos p < 2 ^ N.of_nat (Pos.size_nat p))%N).
    { clear. induction p as [p IH|p IH|]; cbn [Pos.size_nat]; rewrite ?Nat2N.inj_succ, ?N.pow_succ_r'; lia. }
    cbn [N.size_nat]. rewrite Nat2N.inj_succ, N.pow_succ_r'. specialize (G p). lia. }
  eapply N.lt_le_trans; [exact A|]. apply N.pow_le_mono_l. lia.
Qed.
Lemma decimal_ok n :
  Forall (fun b => is_digit b = true) (decimal n) /\ digits_value (decimal n) = n /\
  (forall k, (0 < k)%nat -> (n < 10 ^ N.of_nat k)%N -> length (decimal n) <= k) /\
  exists d l, decimal n = d :: l /\ (l <> [] -> byte_eqb d x30 = false).
Proof.
  destruct (digits_fuel_ok _ n (size_pow n)) as (A & B & D & E). repeat split; try assumption. apply E. discriminate.
Qed.

(** What may follow a value. *)
(** no line of its own in /repo: proof helper *)
Definition ends (s : bytes) : Prop :=
  match s with b :: _ => is_digit b = false /\ byte_eqb b x2e = false /\ byte_eqb b x65 || byte_eqb b x45 = false | [] => True end.
Lemma ends_frac s : ends s -> p_frac s = Some (false, s).
Proof. destruct s as [|b s]; [reflexivity|]. intros (_ & A & _). cbn [p_frac]. rewrite A. reflexivity. Qed.
Lemma ends_exp s : ends s -> p_exp s = Some (false, s).
Proof. destruct s as [|b s]; [reflexivity|]. intros (_ & _ & A). cbn [p_exp]. rewrite A. reflexivity. Qed.
Lemma ends_no_digit s : ends s -> no_digit s.
Proof. destruct s as [|b s]; [constructor|]. intros (A & _). exact A. Qed.

Lemma digit_not b c : is_digit b = true -> is_digit c = false -> byte_eqb b c = false.
Proof. intros A B. destruct (byte_eqb b c) eqn:E; [|reflexivity]. apply byte_eqb_eq in E. congruence. Qed.

Lemma p_number_decimal (neg : bool) n s : ends s ->
  p_number ((if neg then [x2d] else []) ++ decimal n ++ s) =
  Some (if neg then (if N.eqb n 0 then JNegZero else JInt (- Z.of_N n)) else JInt (Z.of_N n), s).
Proof.
  intro E. destruct (decimal_ok n) as (F & V & _ & d & l & D & Hz).
  assert (S1 : span_digits (decimal n ++ s) = (decimal n, s)) by (apply span_app; [exact F|apply ends_no_digit; exact E]).
  unfold p_number.
  assert (X : match (if neg then [x2d] else []) ++ decimal n ++ s with
              | [] => (false, (if neg then [x2d] else []) ++ decimal n ++ s)
              | b :: r => if byte_eqb b x2d then (true, r) else (false, (if neg then [x2d] else []) ++ decimal n ++ s) end
              = (neg, decimal n ++ s)).
  { destruct neg; [reflexivity|]. cbn [app]. rewrite D. cbn [app]. rewrite D in F. inversion F; subst.
    rewrite (digit_not d x2d) by (assumption || reflexivity). reflexivity. }
  rewrite X, S1. rewrite V. rewrite D. 
  assert (Z : byte_eqb d x30 && negb match l with [] => true | _ :: _ => false end = false).
  { destruct l; [apply andb_false_r|]. rewrite Hz by discriminate. reflexivity. }
  rewrite Z, (ends_frac _ E), (ends_exp _ E). reflexivity.
Qed.

Lemma hexdigit_val n : (n < 16)%N -> hexval (hexdigit n) = Some n.
Proof.
  intro H. assert (In n [0;1;2;3;4;5;6;7;8;9;10;11;12;13;14;15]%N) as K by (cbn; lia).
  repeat (destruct K as [<-|K]; [reflexivity|]). destruct K.
Qed.

Lemma escape1_ok b u : in_rng 0 127 b = true -> p_string (escape1 b ++ u) = put [b] (p_string u).
Proof. intro H. destruct b; try discriminate H; reflexivity. Qed.
Lemma p_string_high b u : in_rng 0 127 b = false -> p_string (b :: u) = put [b] (p_string u).
Proof. intro H. destruct b; try discriminate H; reflexivity. Qed.
Lemma put_put a b x : put a (put b x) = put (a ++ b) x.
Proof. destruct x as [[t r]|]; [|reflexivity]. cbn [put]. rewrite app_assoc. reflexivity. Qed.
Lemma put_Some w t r : put w (Some (t, r)) = Some (w ++ t, r).
Proof. reflexivity. Qed.

Lemma escape_ok : forall s u, p_string (escape s ++ x22 :: u) = Some (s, u).
Proof.
  apply (p_string_ind2 (fun s => forall u, p_string (escape s ++ x22 :: u) = Some (s, u))). intros s IH u.
  destruct s as [|b s']; [reflexivity|]. cbn [escape].
  destruct (in_rng 0 127 b) eqn:R.
  { rewrite <- app_assoc, (escape1_ok b _ R), IH by (cbn [length]; lia). reflexivity. }
  assert (PL : p_string ((b :: escape s') ++ x22 :: u) = Some (b :: s', u)).
  { cbn [app]. rewrite p_string_high by exact R. rewrite IH by (cbn [length]; lia). reflexivity. }
  destruct (byte_eqb b xe2) eqn:E; [|exact PL].
  destruct s' as [|b1 [|b2 s'']]; [exact PL|exact PL|].
  destruct (byte_eqb b1 x80 && (byte_eqb b2 xa8 || byte_eqb b2 xa9)) eqn:K; [|exact PL].
  apply andb_true_iff in K as [K1 K2]. apply byte_eqb_eq in E, K1. subst b b1.
  rewrite <- app_assoc.
  apply orb_true_iff in K2 as [K2|K2]; apply byte_eqb_eq in K2; subst b2.
  - change (p_string ([x5c; x75; x32; x30; x32; hexdigit (Byte.to_N xa8 mod 16)] ++ escape s'' ++ x22 :: u))
      with (put [xe2; x80; xa8] (p_string (escape s'' ++ x22 :: u))). rewrite IH by (cbn [length]; lia). reflexivity.
  - change (p_string ([x5c; x75; x32; x30; x32; hexdigit (Byte.to_N xa9 mod 16)] ++ escape s'' ++ x22 :: u))
      with (put [xe2; x80; xa9] (p_string (escape s'' ++ x22 :: u))). rewrite IH by (cbn [length]; lia). reflexivity.
Qed.
Lemma p_str_ok s u : utf8 s -> p_str (escape s ++ x22 :: u) = Some (s, u).
Proof. intro H. unfold p_str. rewrite escape_ok, (utf8_coerce_id s H). reflexivity. Qed.

(** All strings and keys are UTF-8. *)
(** no line of its own in /repo: proof helper *)
Fixpoint json_utf8 (j : json) : Prop :=
  match j with
  | JStr s => utf8 s
  | JArr l => (fix all l := match l with [] => True | x :: l' => json_utf8 x /\ all l' end) l
  | JObj l => (fix all l := match l with [] => True | (k, x) :: l' => utf8 k /\ json_utf8 x /\ all l' end) l
  | _ => True
  end.
Lemma json_ind2 (P : json -> Prop) :
  P JNull -> (forall b, P (JBool b)) -> (forall z, P (JInt z)) -> P JNegZero -> P JFrac -> (forall s, P (JStr s)) ->
  (forall l, Forall P l -> P (JArr l)) -> (forall l, Forall (fun p => P (snd p)) l -> P (JObj l)) -> forall j, P j.
Proof.
  intros A B D E F G H I. fix IH 1. intros [ |b|z| | |s|l|l]; [exact A|apply B|apply D|exact E|exact F|apply G| |].
  - apply H. induction l as [|x l IHl]; constructor; [apply IH|exact IHl].
  - apply I. induction l as [|[k x] l IHl]; constructor; [apply IH|exact IHl].
Qed.

(** The first byte of a printed value is neither white space nor a closing
    bracket. *)
(** no line of its own in /repo: proof helper *)
Definition starts (s : bytes) : Prop :=
  match s with b :: _ => is_ws b = false /\ byte_eqb b x5d = false /\ byte_eqb b x7d = false | [] => False end.
Lemma starts_digit b s : is_digit b = true -> starts (b :: s).
Proof. intro H. destruct b; try discriminate H; cbn; auto. Qed.
Lemma starts_text j : starts (json_text j).
Proof.
  destruct j as [ |[]|z| | |s|l|l]; try (cbn; auto; fail).
  cbn [json_text]. unfold integer. destruct (Z.ltb z 0); [cbn; auto|].
  destruct (decimal_ok (Z.to_N z)) as (F & _ & _ & d & l & E & _). rewrite E in *. inversion F; subst. apply starts_digit. assumption.
Qed.
Lemma starts_skip s u : starts s -> skip_ws (s ++ u) = s ++ u.
Proof. destruct s as [|b s]; [intros []|]. intros (A & _). cbn [app skip_ws]. rewrite A. reflexivity. Qed.

(** The size of a value bounds the fuel. *)
(** no line of its own in /repo: proof helper *)
Fixpoint jsize (j : json) : nat :=
  match j with
  | JArr l => S (fold_right (fun x n => S (jsize x) + n) 0 l)
  | JObj l => S (fold_right (fun x n => S (jsize (snd x)) + n) 0 l)
  | _ => 1
  end.
(** no line of its own in /repo: proof helper *)
Definition asize (l : list json) : nat := fold_right (fun x n => S (jsize x) + n) 0 l.
(** no line of its own in /repo: proof helper *)
Definition osize (l : list (bytes * json)) : nat := fold_right (fun x n => S (jsize (snd x)) + n) 0 l.

(** no line of its own in /repo: proof helper *)
Definition member_text (p : bytes * json) : bytes := quoted (fst p) ++ x3a :: json_text (snd p).

Lemma ends_comma s : ends (x2c :: s). Proof. cbn. auto. Qed.
Lemma ends_brack s : ends (x5d :: s). Proof. cbn. auto. Qed.
Lemma ends_brace s : ends (x7d :: s). Proof. cbn. auto. Qed.

Lemma p_text j : json_utf8 j -> forall fuel s, jsize j <= fuel -> ends s -> p_value fuel (json_text j ++ s) = Some (j, s).
Proof.
  induction j as [ |b|z| | |t|l IH|l IH] using json_ind2; intros U fuel s Fu En;
    (destruct fuel as [|f]; [cbn in Fu; lia|]).
  - reflexivity.
  - destruct b; reflexivity.
  - cbn [p_value]. rewrite starts_skip by apply starts_text.
    assert (D : exists c r, json_text (JInt z) ++ s = c :: r /\
                (is_digit c = true \/ c = x2d) /\ p_number (c :: r) = Some (JInt z, s)).
    { cbn [json_text]. unfold integer. destruct (Z.ltb_spec z 0) as [Ng|Ng].
      - pose proof (p_number_decimal true (Z.to_N (- z)) s En) as P. cbn [app] in P.
        exists x2d, (decimal (Z.to_N (- z)) ++ s). split; [reflexivity|]. split; [right; reflexivity|]. rewrite P.
        replace (N.eqb (Z.to_N (- z)) 0) with false by (symmetry; apply N.eqb_neq; lia). repeat f_equal. lia.
      - pose proof (p_number_decimal false (Z.to_N z) s En) as P. cbn [app] in P.
        destruct (decimal_ok (Z.to_N z)) as (F & _ & _ & d & l & E & _). rewrite E in *. inversion F; subst.
        exists d, (l ++ s). split; [reflexivity|]. split; [left; assumption|]. cbn [app] in P. rewrite P. repeat f_equal. lia. }
    destruct D as (c & r & -> & Cc & P).
    assert (NE : forall x, is_digit x = false -> byte_eqb x x2d = false -> byte_eqb c x = false).
    { intros x X1 X2. destruct Cc as [Cc| ->]; [apply digit_not; assumption|].
      destruct (byte_eqb x2d x) eqn:Q; [|reflexivity]. apply byte_eqb_eq in Q. subst x. discriminate X2. }
    rewrite !NE by reflexivity. exact P.
  - cbn [p_value json_text app skip_ws]. 
    change (p_number (x2d :: x30 :: s) = Some (JNegZero, s)).
    apply (p_number_decimal true 0 s En).
  - cbn [p_value json_text app skip_ws].
    change (p_number (x30 :: x2e :: x35 :: s) = Some (JFrac, s)). unfold p_number.
    change (byte_eqb x30 x2d) with false. cbn iota.
    change (span_digits (x30 :: x2e :: x35 :: s)) with ([x30], x2e :: x35 :: s). cbn iota beta.
    change (byte_eqb x30 x30 && negb true) with false. cbn iota.
    unfold p_frac. change (byte_eqb x2e x2e) with true. cbn iota.
    change (x35 :: s) with ([x35] ++ s). rewrite (span_app [x35] s) by (repeat constructor || (apply ends_no_digit; exact En)).
    rewrite (ends_exp s En). reflexivity.
  - cbn [p_value json_text]. unfold quoted. cbn [app skip_ws]. change (is_ws x22) with false. cbn iota.
    change (byte_eqb x22 x22) with true. cbn iota. rewrite <- app_assoc. cbn [app]. rewrite p_str_ok by exact U. reflexivity.
  - assert (G : forall l, Forall (fun j => json_utf8 j -> forall fuel s, jsize j <= fuel -> ends s ->
                  p_value fuel (json_text j ++ s) = Some (j, s)) l -> json_utf8 (JArr l) -> l <> [] ->
                forall f s, asize l <= f -> p_elems f (commas (map json_text l) ++ x5d :: s) = Some (l, s)).
    { clear. induction l as [|x l IHl]; intros F U NE f s L; [congruence|].
      inversion F as [|? ? Fx Fl]; subst. destruct U as [Ux Ul]. cbn [asize fold_right] in L. fold (asize l) in L.
      destruct f as [|f]; [lia|]. cbn [p_elems]. destruct l as [|y l].
      - cbn [map commas]. rewrite Fx by (exact Ux || lia || apply ends_brack). reflexivity.
      - change (commas (map json_text (x :: y :: l))) with (json_text x ++ x2c :: commas (map json_text (y :: l))).
        rewrite <- app_assoc. cbn [app].
        rewrite Fx by (exact Ux || lia || apply ends_comma). cbn [skip_ws]. change (is_ws x2c) with false. cbn iota.
        change (byte_eqb x2c x5d) with false. change (byte_eqb x2c x2c) with true. cbn iota.
        rewrite IHl by (exact Fl || exact Ul || discriminate || lia). reflexivity. }
    cbn [p_value json_text app skip_ws]. change (is_ws x5b) with false. cbn iota.
    change (byte_eqb x5b x22) with false. change (byte_eqb x5b x5b) with true. cbn iota.
    rewrite <- app_assoc. cbn [app].
    destruct l as [|x l]; [reflexivity|].
    assert (S : exists c r, commas (map json_text (x :: l)) ++ x5d :: s = c :: r /\ is_ws c = false /\ byte_eqb c x5d = false).
    { pose proof (starts_text x) as S. destruct (json_text x) as [|c r] eqn:E; [destruct S|]. destruct S as (S1 & S2 & _).
      destruct l; cbn [map commas]; rewrite E; cbn [app]; eauto. }
    destruct S as (c & r & E & S1 & S2). 
    assert (Fs : p_elems f (commas (map json_text (x :: l)) ++ x5d :: s) = Some (x :: l, s)).
    { apply G; [exact IH|exact U|discriminate|]. cbn [jsize] in Fu. unfold asize. lia. }
    rewrite E in *. cbn [skip_ws]. rewrite S1, S2. rewrite Fs. reflexivity.
  - assert (G : forall l, Forall (fun p => json_utf8 (snd p) -> forall fuel s, jsize (snd p) <= fuel -> ends s ->
                  p_value fuel (json_text (snd p) ++ s) = Some (snd p, s)) l -> json_utf8 (JObj l) -> l <> [] ->
                forall f s, osize l <= f -> p_members f (commas (map member_text l) ++ x7d :: s) = Some (l, s)).
    { clear. induction l as [|[k x] l IHl]; intros F U NE f s L; [congruence|].
      inversion F as [|? ? Fx Fl]; subst. destruct U as (Uk & Ux & Ul). cbn [osize fold_right snd] in L, Fx. fold (osize l) in L.
      destruct f as [|f]; [lia|].
      assert (M : forall s', member_text (k, x) ++ s' = x22 :: escape k ++ x22 :: x3a :: json_text x ++ s').
      { intro s'. unfold member_text, quoted. cbn [fst snd app]. rewrite <- !app_assoc. cbn [app]. reflexivity. }
      cbn [p_members]. destruct l as [|y l].
      - cbn [map commas]. rewrite M. cbn [skip_ws]. change (is_ws x22) with false. cbn iota. change (byte_eqb x22 x22) with true. cbn iota.
        rewrite p_str_ok by exact Uk. cbn [skip_ws]. change (is_ws x3a) with false. cbn iota. change (byte_eqb x3a x3a) with true. cbn iota.
        rewrite Fx by (exact Ux || lia || apply ends_brace). reflexivity.
      - change (commas (map member_text ((k, x) :: y :: l))) with (member_text (k, x) ++ x2c :: commas (map member_text (y :: l))).
        rewrite <- app_assoc. cbn [app]. rewrite M. cbn [skip_ws]. change (is_ws x22) with false. cbn iota. change (byte_eqb x22 x22) with true. cbn iota.
        rewrite p_str_ok by exact Uk. cbn [skip_ws]. change (is_ws x3a) with false. cbn iota. change (byte_eqb x3a x3a) with true. cbn iota.
        rewrite Fx by (exact Ux || lia || apply ends_comma). cbn [skip_ws]. change (is_ws x2c) with false. cbn iota.
        change (byte_eqb x2c x7d) with false. change (byte_eqb x2c x2c) with true. cbn iota.
        rewrite IHl by (exact Fl || exact Ul || discriminate || lia). reflexivity. }
    cbn [p_value json_text app skip_ws]. change (is_ws x7b) with false. cbn iota.
    change (byte_eqb x7b x22) with false. change (byte_eqb x7b x5b) with false. change (byte_eqb x7b x7b) with true. cbn iota.
    rewrite <- app_assoc. cbn [app].
    change (fun p : bytes * json => quoted (fst p) ++ x3a :: json_text (snd p)) with member_text.
    destruct l as [|x l]; [reflexivity|].
    assert (S : exists r, commas (map member_text (x :: l)) ++ x7d :: s = x22 :: r).
    { destruct l; cbn [map commas]; unfold member_text at 1, quoted; cbn [app]; eauto. }
    destruct S as (r & E).
    assert (Fs : p_members f (commas (map member_text (x :: l)) ++ x7d :: s) = Some (x :: l, s)).
    { apply G; [exact IH|exact U|discriminate|]. cbn [jsize] in Fu. unfold osize. lia. }
    rewrite E in *. cbn [skip_ws]. change (is_ws x22) with false. cbn iota. change (byte_eqb x22 x7d) with false. cbn iota.
    rewrite Fs. reflexivity.
Qed.

Lemma text_len_pos j : 0 < length (json_text j).
Proof. pose proof (starts_text j). destruct (json_text j); [destruct H|cbn; lia]. Qed.
Lemma commas_len l : length (concat l) <= length (commas l).
Proof.
  induction l as [|x l IH]; [reflexivity|]. destruct l as [|y l]; [cbn [concat commas]; rewrite app_nil_r; lia|].
  cbn [concat] in *. change (commas (x :: y :: l)) with (x ++ x2c :: commas (y :: l)).
  rewrite !app_length in *. cbn [length]. lia.
Qed.
Lemma jsize_text j : jsize j <= 2 * length (json_text j).
Proof.
  induction j as [ |b|z| | |t|l IH|l IH] using json_ind2; try (cbn [jsize]; pose proof (text_len_pos) as P; 
    match goal with |- _ <= 2 * length (json_text ?j) => specialize (P j); lia end).
  - assert (K : asize l <= 2 * length (commas (map json_text l)) + 1).
    { clear -IH. induction IH as [|x l A F IH]; [cbn; lia|]. cbn [asize fold_right]. fold (asize l).
      destruct l as [|y l]; [cbn [map commas asize fold_right]; pose proof (text_len_pos x); lia|].
      change (commas (map json_text (x :: y :: l))) with (json_text x ++ x2c :: commas (map json_text (y :: l))).
      rewrite app_length. cbn [length]. lia. }
    cbn [jsize json_text]. fold (asize l). cbn [length]. rewrite app_length. cbn [length]. lia.
  - assert (K : osize l <= 2 * length (commas (map member_text l)) + 1).
    { clear -IH. induction IH as [|x l A F IH]; [cbn; lia|]. cbn [osize fold_right]. fold (osize l).
      assert (M : length (json_text (snd x)) + 3 <= length (member_text x)).
      { unfold member_text, quoted. rewrite app_length. cbn [length]. rewrite app_length. cbn [length]. lia. }
      destruct l as [|y l]; [cbn [map commas osize fold_right]; lia|].
      change (commas (map member_text (x :: y :: l))) with (member_text x ++ x2c :: commas (map member_text (y :: l))).
      rewrite app_length. cbn [length]. lia. }
    cbn [jsize json_text]. fold (osize l). cbn [length]. rewrite app_length. cbn [length].
    change (fun p : bytes * json => quoted (fst p) ++ x3a :: json_text (snd p)) with member_text. lia.
Qed.

(** What was printed is read back, whatever its size. *)
Lemma json_round_trip j : json_utf8 j -> json_parse (json_text j) = Some j.
Proof.
  intro U. unfold json_parse, parse_with. rewrite <- (app_nil_r (json_text j)) at 2.
  rewrite p_text; [reflexivity|exact U| |exact I]. pose proof (jsize_text j). lia.
Qed.
Lemma p_text_any j : json_utf8 j -> json_text j <> [].
Proof. intros _ H. pose proof (text_len_pos j). rewrite H in *. cbn in *; lia. Qed.
