(** The part of Go's encoding/json that the messages of coniks-go use, on the
    level of JSON values (the text syntax is in JsonText.v): field matching,
    integers, strings (UTF-8 coercion), []byte (base64), fixed byte arrays,
    pointers and slices.  Decoding returns [None] for a non-nil error. *)
From Coq Require Import List NArith ZArith Lia Bool Arith.
From Coq Require String.
From Verif Require Import Base.
Import ListNotations.
Local Open Scope nat_scope.

(** JSON values.  [JFrac] stands for a number literal that is not an integer
    (with a fraction or an exponent), [JNegZero] for the literal -0. *)
(** the documents of application/encoding.go:14-108 *)
Inductive json :=
| JNull | JBool (b : bool) | JInt (z : Z) | JNegZero | JFrac
| JStr (s : bytes) | JArr (l : list json) | JObj (l : list (bytes * json)).

(** Go library encoding/json (and strings, encoding/base64), called at application/encoding.go:15, 26, 48, 52, 63, 69-104 and application/config.go:79, 91 *)
Definition key (s : String.string) : bytes := String.list_byte_of_string s.

(** ** UTF-8: encoding/json replaces every byte that is not part of a
    well-formed UTF-8 sequence by U+FFFD, when encoding and when decoding. *)
(** Go library encoding/json (and strings, encoding/base64), called at application/encoding.go:15, 26, 48, 52, 63, 69-104 and application/config.go:79, 91 *)
Definition in_rng (lo hi : N) (b : byte) : bool := N.leb lo (Byte.to_N b) && N.leb (Byte.to_N b) hi.
(** Go library encoding/json (and strings, encoding/base64), called at application/encoding.go:15, 26, 48, 52, 63, 69-104 and application/config.go:79, 91 *)
Definition cont (b : byte) : bool := in_rng 128 191 b.

(** Second byte allowed after a three- or four-byte lead (Go's acceptRanges). *)
(** Go library encoding/json (and strings, encoding/base64), called at application/encoding.go:15, 26, 48, 52, 63, 69-104 and application/config.go:79, 91 *)
Definition lead3 (b0 b1 : byte) : bool :=
  (in_rng 224 224 b0 && in_rng 160 191 b1) || (in_rng 225 236 b0 && cont b1) ||
  (in_rng 237 237 b0 && in_rng 128 159 b1) || (in_rng 238 239 b0 && cont b1).
(** Go library encoding/json (and strings, encoding/base64), called at application/encoding.go:15, 26, 48, 52, 63, 69-104 and application/config.go:79, 91 *)
Definition lead4 (b0 b1 : byte) : bool :=
  (in_rng 240 240 b0 && in_rng 144 191 b1) || (in_rng 241 243 b0 && cont b1) ||
  (in_rng 244 244 b0 && in_rng 128 143 b1).

(** Go library encoding/json (and strings, encoding/base64), called at application/encoding.go:15, 26, 48, 52, 63, 69-104 and application/config.go:79, 91 *)
Fixpoint utf8_coerce (s : bytes) : bytes :=
  match s with
  | [] => []
  | b0 :: s1 =>
      if in_rng 0 127 b0 then b0 :: utf8_coerce s1
      else
        match s1 with
        | b1 :: s2 =>
            if in_rng 194 223 b0 && cont b1 then b0 :: b1 :: utf8_coerce s2
            else
              match s2 with
              | b2 :: s3 =>
                  if lead3 b0 b1 && cont b2 then b0 :: b1 :: b2 :: utf8_coerce s3
                  else
                    match s3 with
                    | b3 :: s4 =>
                        if lead4 b0 b1 && cont b2 && cont b3
                        then b0 :: b1 :: b2 :: b3 :: utf8_coerce s4
                        else xef :: xbf :: xbd :: utf8_coerce s1
                    | [] => xef :: xbf :: xbd :: utf8_coerce s1
                    end
              | [] => xef :: xbf :: xbd :: utf8_coerce s1
              end
        | [] => xef :: xbf :: xbd :: utf8_coerce s1
        end
  end.

(** Well-formed UTF-8 (RFC 3629, section 4, ABNF), as a specification. *)
(** Go library encoding/json (and strings, encoding/base64), called at application/encoding.go:15, 26, 48, 52, 63, 69-104 and application/config.go:79, 91 *)
Inductive utf8 : bytes -> Prop :=
| u_nil : utf8 []
| u_1 b0 s : in_rng 0 127 b0 = true -> utf8 s -> utf8 (b0 :: s)
| u_2 b0 b1 s : in_rng 194 223 b0 = true -> cont b1 = true -> utf8 s -> utf8 (b0 :: b1 :: s)
| u_3 b0 b1 b2 s : lead3 b0 b1 = true -> cont b2 = true -> utf8 s -> utf8 (b0 :: b1 :: b2 :: s)
| u_4 b0 b1 b2 b3 s : lead4 b0 b1 = true -> cont b2 = true -> cont b3 = true -> utf8 s ->
    utf8 (b0 :: b1 :: b2 :: b3 :: s).

(** ** Base64 (encoding/base64.StdEncoding, as used for []byte) *)
(** Go library encoding/json (and strings, encoding/base64), called at application/encoding.go:15, 26, 48, 52, 63, 69-104 and application/config.go:79, 91 *)
Definition b64_char (n : N) : byte :=
  b8 (if N.ltb n 26 then 65 + n else if N.ltb n 52 then 97 + (n - 26)
      else if N.ltb n 62 then 48 + (n - 52) else if N.eqb n 62 then 43 else 47)%N.
(** Go library encoding/json (and strings, encoding/base64), called at application/encoding.go:15, 26, 48, 52, 63, 69-104 and application/config.go:79, 91 *)
Definition b64_val (c : byte) : option N :=
  let n := Byte.to_N c in
  (if N.leb 65 n && N.leb n 90 then Some (n - 65)
   else if N.leb 97 n && N.leb n 122 then Some (n - 97 + 26)
   else if N.leb 48 n && N.leb n 57 then Some (n - 48 + 52)
   else if N.eqb n 43 then Some 62 else if N.eqb n 47 then Some 63 else None)%N.
(** Go library encoding/json (and strings, encoding/base64), called at application/encoding.go:15, 26, 48, 52, 63, 69-104 and application/config.go:79, 91 *)
Definition b64_pad : byte := x3d.

(** Go library encoding/json (and strings, encoding/base64), called at application/encoding.go:15, 26, 48, 52, 63, 69-104 and application/config.go:79, 91 *)
Fixpoint b64_enc (b : bytes) : bytes :=
  match b with
  | [] => []
  | [a] => let a := Byte.to_N a in
           [b64_char (a / 4); b64_char ((a mod 4) * 16); b64_pad; b64_pad]%N
  | [a; b] => let a := Byte.to_N a in let b := Byte.to_N b in
           [b64_char (a / 4); b64_char ((a mod 4) * 16 + b / 16); b64_char ((b mod 16) * 4); b64_pad]%N
  | a :: b :: c :: rest => let a := Byte.to_N a in let b := Byte.to_N b in let c := Byte.to_N c in
           (b64_char (a / 4) :: b64_char ((a mod 4) * 16 + b / 16) ::
            b64_char ((b mod 16) * 4 + c / 64) :: b64_char (c mod 64) :: b64_enc rest)%N
  end.

(** Go library encoding/json (and strings, encoding/base64), called at application/encoding.go:15, 26, 48, 52, 63, 69-104 and application/config.go:79, 91 *)
Fixpoint b64_dec_groups (s : bytes) : option bytes :=
  match s with
  | [] => Some []
  | c1 :: c2 :: c3 :: c4 :: rest =>
      match b64_val c1, b64_val c2 with
      | Some v1, Some v2 =>
          let o1 := b8 (v1 * 4 + v2 / 16)%N in
          if byte_eqb c3 b64_pad then
            if byte_eqb c4 b64_pad then match rest with [] => Some [o1] | _ => None end else None
          else
            match b64_val c3 with
            | None => None
            | Some v3 =>
                let o2 := b8 ((v2 mod 16) * 16 + v3 / 4)%N in
                if byte_eqb c4 b64_pad then match rest with [] => Some [o1; o2] | _ => None end
                else
                  match b64_val c4, b64_dec_groups rest with
                  | Some v4, Some l => Some (o1 :: o2 :: b8 ((v3 mod 4) * 64 + v4)%N :: l)
                  | _, _ => None
                  end
            end
      | _, _ => None
      end
  | _ => None
  end.
(** The decoder skips CR and LF. *)
(** Go library encoding/json (and strings, encoding/base64), called at application/encoding.go:15, 26, 48, 52, 63, 69-104 and application/config.go:79, 91 *)
Definition b64_dec (s : bytes) : option bytes :=
  b64_dec_groups (filter (fun c => negb (byte_eqb c x0a || byte_eqb c x0d)) s).

(** ** Field names: an object member belongs to the struct field of the same
    name up to case. *)
(** Go library encoding/json (and strings, encoding/base64), called at application/encoding.go:15, 26, 48, 52, 63, 69-104 and application/config.go:79, 91 *)
Definition lower (b : byte) : byte :=
  let n := Byte.to_N b in if N.leb 65 n && N.leb n 90 then b8 (n + 32) else b.
(** [strings.EqualFold], and the matching of struct fields to keys in
    encoding/json (case-insensitive), of an ASCII text [s] with any text [t]: character by
    character under simple Unicode case folding.  The only characters outside
    ASCII that fold to an ASCII letter are U+212A (e2 84 aa) with k and U+017F
    (c5 bf) with s; anything else outside ASCII, including ill-formed bytes,
    equals no ASCII character. *)
(** Go library encoding/json (and strings, encoding/base64), called at application/encoding.go:15, 26, 48, 52, 63, 69-104 and application/config.go:79, 91 *)
Fixpoint EqualFold (s t : bytes) : bool :=
  match s with
  | [] => match t with [] => true | _ => false end
  | c :: s' =>
      match t with
      | [] => false
      | b :: t' =>
          if byte_eqb (lower c) (lower b) then EqualFold s' t'
          else if byte_eqb (lower c) x6b && byte_eqb b xe2 then
            match t' with b1 :: b2 :: t'' => byte_eqb b1 x84 && byte_eqb b2 xaa && EqualFold s' t'' | _ => false end
          else if byte_eqb (lower c) x73 && byte_eqb b xc5 then
            match t' with b1 :: t'' => byte_eqb b1 xbf && EqualFold s' t'' | _ => false end
          else false
      end
  end.


(** ** Decoders: current value of the field, JSON value, new value.
    [strconv.ParseInt] takes -0, [strconv.ParseUint] does not. *)
(** Go library encoding/json (and strings, encoding/base64), called at application/encoding.go:15, 26, 48, 52, 63, 69-104 and application/config.go:79, 91 *)
Definition dec_int (cur : Z) (v : json) : option Z :=
  match v with
  | JNull => Some cur
  | JNegZero => Some 0%Z
  | JInt z => if Z.leb (- 2 ^ 63) z && Z.ltb z (2 ^ 63) then Some z else None
  | _ => None
  end.
(** Go library encoding/json (and strings, encoding/base64), called at application/encoding.go:15, 26, 48, 52, 63, 69-104 and application/config.go:79, 91 *)
Definition dec_uint (bits : N) (cur : N) (v : json) : option N :=
  match v with
  | JNull => Some cur
  | JInt z => if Z.leb 0 z && Z.ltb z (Z.of_N (2 ^ bits)) then Some (Z.to_N z) else None
  | _ => None
  end.
(** Go library encoding/json (and strings, encoding/base64), called at application/encoding.go:15, 26, 48, 52, 63, 69-104 and application/config.go:79, 91 *)
Definition dec_bool (cur : bool) (v : json) : option bool :=
  match v with JNull => Some cur | JBool b => Some b | _ => None end.
(** Go library encoding/json (and strings, encoding/base64), called at application/encoding.go:15, 26, 48, 52, 63, 69-104 and application/config.go:79, 91 *)
Definition dec_string (cur : bytes) (v : json) : option bytes :=
  match v with JNull => Some cur | JStr s => Some s | _ => None end.
(** Go library encoding/json (and strings, encoding/base64), called at application/encoding.go:15, 26, 48, 52, 63, 69-104 and application/config.go:79, 91 *)
Fixpoint omap {A B} (f : A -> option B) (l : list A) : option (list B) :=
  match l with
  | [] => Some []
  | a :: l' => match f a, omap f l' with Some b, Some bs => Some (b :: bs) | _, _ => None end
  end.
(** Go library encoding/json (and strings, encoding/base64), called at application/encoding.go:15, 26, 48, 52, 63, 69-104 and application/config.go:79, 91 *)
Definition dec_byte (v : json) : option byte := option_map b8 (dec_uint 8 0 v).
(** []byte: base64 text, or an array of numbers.  [None] inside is nil. *)
(** Go library encoding/json (and strings, encoding/base64), called at application/encoding.go:15, 26, 48, 52, 63, 69-104 and application/config.go:79, 91 *)
Definition dec_bytes_opt (v : json) : option (option bytes) :=
  match v with
  | JNull => Some None
  | JStr s => option_map Some (b64_dec s)
  | JArr l => option_map Some (omap dec_byte l)
  | _ => None
  end.
(** Go library encoding/json (and strings, encoding/base64), called at application/encoding.go:15, 26, 48, 52, 63, 69-104 and application/config.go:79, 91 *)
Definition dec_bytes (v : json) : option bytes :=
  option_map (fun o => match o with Some b => b | None => [] end) (dec_bytes_opt v).
(** [32]byte: an array; missing elements are zero, surplus ones dropped. *)
(** Go library encoding/json (and strings, encoding/base64), called at application/encoding.go:15, 26, 48, 52, 63, 69-104 and application/config.go:79, 91 *)
Definition dec_arr32 (v : json) : option bytes :=
  match v with
  | JNull => Some (repeat x00 32)
  | JArr l => option_map (fun bs => firstn 32 (bs ++ repeat x00 32)) (omap dec_byte l)
  | _ => None
  end.
(** A slice: null is nil. *)
(** Go library encoding/json (and strings, encoding/base64), called at application/encoding.go:15, 26, 48, 52, 63, 69-104 and application/config.go:79, 91 *)
Definition dec_slice {A} (f : json -> option A) (v : json) : option (list A) :=
  match v with JNull => Some [] | JArr l => omap f l | _ => None end.
(** A struct: the members in order, each into its field; unknown ones are
    skipped. *)
(** Go library encoding/json (and strings, encoding/base64), called at application/encoding.go:15, 26, 48, 52, 63, 69-104 and application/config.go:79, 91 *)
Fixpoint dec_members {A} (field : A -> bytes -> json -> option A) (cur : A) (l : list (bytes * json)) : option A :=
  match l with
  | [] => Some cur
  | (k, v) :: l' => match field cur k v with Some cur' => dec_members field cur' l' | None => None end
  end.
(** Go library encoding/json (and strings, encoding/base64), called at application/encoding.go:15, 26, 48, 52, 63, 69-104 and application/config.go:79, 91 *)
Definition dec_struct {A} (field : A -> bytes -> json -> option A) (cur : A) (v : json) : option A :=
  match v with JNull => Some cur | JObj l => dec_members field cur l | _ => None end.
(** A pointer to a struct: null is nil; otherwise decoded into the value
    pointed to, or a fresh one. *)
(** Go library encoding/json (and strings, encoding/base64), called at application/encoding.go:15, 26, 48, 52, 63, 69-104 and application/config.go:79, 91 *)
Definition dec_ptr {A} (field : A -> bytes -> json -> option A) (zero : A) (cur : option A) (v : json)
  : option (option A) :=
  match v with
  | JNull => Some None
  | _ => option_map Some (dec_struct field (match cur with Some a => a | None => zero end) v)
  end.

(** ** Encoders *)
(** Go library encoding/json (and strings, encoding/base64), called at application/encoding.go:15, 26, 48, 52, 63, 69-104 and application/config.go:79, 91 *)
Definition enc_string (s : bytes) : json := JStr (utf8_coerce s).
(** Go library encoding/json (and strings, encoding/base64), called at application/encoding.go:15, 26, 48, 52, 63, 69-104 and application/config.go:79, 91 *)
Definition enc_bytes_opt (b : option bytes) : json :=
  match b with None => JNull | Some b => JStr (b64_enc b) end.
(** The model does not tell nil from empty here; null and "" decode alike. *)
(** Go library encoding/json (and strings, encoding/base64), called at application/encoding.go:15, 26, 48, 52, 63, 69-104 and application/config.go:79, 91 *)
Definition enc_bytes (b : bytes) : json := match b with [] => JNull | _ => JStr (b64_enc b) end.
(** Go library encoding/json (and strings, encoding/base64), called at application/encoding.go:15, 26, 48, 52, 63, 69-104 and application/config.go:79, 91 *)
Definition enc_N (n : N) : json := JInt (Z.of_N n).
(** Go library encoding/json (and strings, encoding/base64), called at application/encoding.go:15, 26, 48, 52, 63, 69-104 and application/config.go:79, 91 *)
Definition enc_arr32 (b : bytes) : json := JArr (map (fun c => enc_N (Byte.to_N c)) b).
(** Go library encoding/json (and strings, encoding/base64), called at application/encoding.go:15, 26, 48, 52, 63, 69-104 and application/config.go:79, 91 *)
Definition enc_ptr {A} (f : A -> json) (o : option A) : json := match o with None => JNull | Some a => f a end.

(** * Facts *)
Ltac dmN := repeat match goal with
  | |- context [(?a / ?b)%N] =>
     lazymatch a with context [(_ / _)%N] => fail | context [(_ mod _)%N] => fail | _ => idtac end;
     let H := fresh in let H' := fresh in
     pose proof (N.div_mod' a b) as H; pose proof (N.mod_upper_bound a b ltac:(discriminate)) as H';
     generalize dependent (a / b)%N; generalize dependent (a mod b)%N; intros
  | |- context [(?a mod ?b)%N] =>
     lazymatch a with context [(_ / _)%N] => fail | context [(_ mod _)%N] => fail | _ => idtac end;
     let H := fresh in let H' := fresh in
     pose proof (N.div_mod' a b) as H; pose proof (N.mod_upper_bound a b ltac:(discriminate)) as H';
     generalize dependent (a / b)%N; generalize dependent (a mod b)%N; intros
  end; lia.

Lemma b64_val_char n : (n < 64)%N -> b64_val (b64_char n) = Some n /\ byte_eqb (b64_char n) b64_pad = false
  /\ negb (byte_eqb (b64_char n) x0a || byte_eqb (b64_char n) x0d) = true.
Proof.
  intro H.
  assert (G : forallb (fun i => match b64_val (b64_char (N.of_nat i)) with Some v => N.eqb v (N.of_nat i) | None => false end
      && negb (byte_eqb (b64_char (N.of_nat i)) b64_pad)
      && negb (byte_eqb (b64_char (N.of_nat i)) x0a || byte_eqb (b64_char (N.of_nat i)) x0d)) (seq 0 64) = true)
    by (vm_compute; reflexivity).
  rewrite forallb_forall in G. specialize (G (N.to_nat n)). rewrite N2Nat.id in G.
  assert (K : In (N.to_nat n) (seq 0 64)) by (apply in_seq; lia). specialize (G K).
  apply andb_true_iff in G as [G G3]. apply andb_true_iff in G as [G1 G2].
  destruct (b64_val (b64_char n)); [|discriminate G1]. apply N.eqb_eq in G1. subst.
  repeat split; auto. destruct (byte_eqb (b64_char n) b64_pad); auto; discriminate.
Qed.

Lemma b64_val_ch n : (n < 64)%N -> b64_val (b64_char n) = Some n.
Proof. intro H; apply (b64_val_char n H). Qed.
Lemma b64_npad n : (n < 64)%N -> byte_eqb (b64_char n) b64_pad = false.
Proof. intro H; apply (b64_val_char n H). Qed.
Lemma b64_nnl n : (n < 64)%N -> negb (byte_eqb (b64_char n) x0a || byte_eqb (b64_char n) x0d) = true.
Proof. intro H; apply (b64_val_char n H). Qed.

Lemma b8_to_N b n : n = Byte.to_N b -> b8 n = b.
Proof.
  intros ->. unfold b8. rewrite N.mod_small; [rewrite Byte.of_to_N; reflexivity|].
  pose proof (Byte.to_N_bounded b). lia.
Qed.

Lemma b64_filter b : filter (fun c => negb (byte_eqb c x0a || byte_eqb c x0d)) (b64_enc b) = b64_enc b.
Proof.
  assert (P : negb (byte_eqb b64_pad x0a || byte_eqb b64_pad x0d) = true) by reflexivity.
  remember (length b) as n eqn:E. assert (L : length b <= n) by lia. clear E. revert b L.
  induction n as [n IH] using lt_wf_ind. intros b L.
  destruct b as [|x [|y [|z b]]]; cbn [b64_enc filter]; auto.
  - pose proof (Byte.to_N_bounded x).
    rewrite !b64_nnl by (dmN). rewrite ?P. reflexivity.
  - pose proof (Byte.to_N_bounded x); pose proof (Byte.to_N_bounded y).
    rewrite !b64_nnl by (dmN). rewrite ?P. reflexivity.
  - pose proof (Byte.to_N_bounded x); pose proof (Byte.to_N_bounded y); pose proof (Byte.to_N_bounded z).
    rewrite !b64_nnl by (dmN).
    cbn [length] in L. rewrite (IH (length b)) by lia. reflexivity.
Qed.

Lemma b64_dec_enc b : b64_dec (b64_enc b) = Some b.
Proof.
  unfold b64_dec. rewrite b64_filter.
  remember (length b) as n eqn:E. assert (L : length b <= n) by lia. clear E. revert b L.
  induction n as [n IH] using lt_wf_ind. intros b L.
  destruct b as [|x [|y [|z b]]]; cbn [b64_enc b64_dec_groups]; auto.
  - pose proof (Byte.to_N_bounded x).
    rewrite !b64_val_ch by (dmN).
    change (byte_eqb b64_pad b64_pad) with true. cbn iota. do 2 f_equal.
    apply b8_to_N. dmN.
  - pose proof (Byte.to_N_bounded x); pose proof (Byte.to_N_bounded y).
    rewrite !b64_val_ch by (dmN).
    rewrite !b64_npad by (dmN).
    change (byte_eqb b64_pad b64_pad) with true. cbn iota.
    f_equal. f_equal; [|f_equal]; apply b8_to_N; dmN.
  - pose proof (Byte.to_N_bounded x); pose proof (Byte.to_N_bounded y); pose proof (Byte.to_N_bounded z).
    rewrite !b64_val_ch by (dmN).
    rewrite !b64_npad by (dmN).
    cbn [length] in L. rewrite (IH (length b)) by lia.
    f_equal. f_equal; [|f_equal; [|f_equal]]; apply b8_to_N; dmN.
Qed.

Lemma utf8_coerce_id s : utf8 s -> utf8_coerce s = s.
Proof.
  induction 1; cbn [utf8_coerce]; auto.
  - rewrite H, IHutf8. reflexivity.
  - assert (in_rng 0 127 b0 = false) as ->.
    { unfold in_rng in *. apply andb_true_iff in H as [A B]. apply N.leb_le in A.
      apply andb_false_iff. right. apply N.leb_gt. lia. }
    rewrite H, H0, IHutf8. reflexivity.
  - assert (A : (224 <= Byte.to_N b0)%N).
    { unfold lead3, in_rng in H. repeat rewrite ?andb_true_iff, ?orb_true_iff, ?N.leb_le in H. lia. }
    assert (in_rng 0 127 b0 = false) as ->.
    { apply andb_false_iff. right. apply N.leb_gt. lia. }
    assert (in_rng 194 223 b0 = false) as ->.
    { apply andb_false_iff. right. apply N.leb_gt. lia. }
    cbn [andb]. rewrite H, H0, IHutf8. reflexivity.
  - assert (A : (240 <= Byte.to_N b0)%N).
    { unfold lead4, in_rng in H. repeat rewrite ?andb_true_iff, ?orb_true_iff, ?N.leb_le in H. lia. }
    assert (in_rng 0 127 b0 = false) as ->.
    { apply andb_false_iff. right. apply N.leb_gt. lia. }
    assert (in_rng 194 223 b0 = false) as ->.
    { apply andb_false_iff. right. apply N.leb_gt. lia. }
    assert (lead3 b0 b1 = false) as ->.
    { unfold lead3, in_rng. repeat rewrite ?orb_false_iff, ?andb_false_iff, ?N.leb_gt. lia. }
    cbn [andb]. rewrite H, H0, H1, IHutf8. reflexivity.
Qed.

(** Whatever is encoded is well-formed UTF-8. *)
Lemma utf8_coerce_valid s : utf8 (utf8_coerce s).
Proof.
  remember (length s) as n eqn:E. assert (L : length s <= n) by lia. clear E. revert s L.
  induction n as [n IH] using lt_wf_ind. intros s L.
  assert (R : forall t, length t < length s -> utf8 (xef :: xbf :: xbd :: utf8_coerce t)).
  { intros t Ht. apply u_3; auto. apply (IH (length t)); lia. }
  destruct s as [|b0 s1]; [constructor|]. cbn [utf8_coerce]. cbn [length] in *.
  destruct (in_rng 0 127 b0) eqn:E0; [apply u_1; auto; apply (IH (length s1)); lia|].
  destruct s1 as [|b1 s2]; [apply R; cbn; lia|]. cbn [length] in *.
  destruct (in_rng 194 223 b0 && cont b1) eqn:E1.
  { apply andb_true_iff in E1 as [? ?]. apply u_2; auto. apply (IH (length s2)); lia. }
  destruct s2 as [|b2 s3]; [apply R; cbn; lia|]. cbn [length] in *.
  destruct (lead3 b0 b1 && cont b2) eqn:E2.
  { apply andb_true_iff in E2 as [? ?]. apply u_3; auto. apply (IH (length s3)); lia. }
  destruct s3 as [|b3 s4]; [apply R; cbn; lia|]. cbn [length] in *.
  destruct (lead4 b0 b1 && cont b2 && cont b3) eqn:E3.
  { apply andb_true_iff in E3 as [E3 ?]. apply andb_true_iff in E3 as [? ?].
    apply u_4; auto. apply (IH (length s4)); lia. }
  apply R; cbn [length]; lia.
Qed.

Lemma dec_bytes_opt_enc b : dec_bytes_opt (enc_bytes_opt b) = Some b.
Proof. destruct b; simpl; auto. rewrite b64_dec_enc. reflexivity. Qed.
Lemma dec_bytes_enc b : dec_bytes (enc_bytes b) = Some b.
Proof. destruct b; auto. unfold dec_bytes, enc_bytes, dec_bytes_opt. rewrite b64_dec_enc. reflexivity. Qed.
Lemma dec_uint_enc bits cur n : (n < 2 ^ bits)%N -> dec_uint bits cur (enc_N n) = Some n.
Proof.
  intro H. unfold dec_uint, enc_N. 
  assert (Z.leb 0 (Z.of_N n) = true) as -> by (apply Z.leb_le; lia).
  assert (Z.ltb (Z.of_N n) (Z.of_N (2 ^ bits)) = true) as -> by (apply Z.ltb_lt; lia).
  cbn [andb]. rewrite N2Z.id. reflexivity.
Qed.
Lemma omap_map {A B D} (f : B -> option D) (g : A -> B) (h : A -> D) l :
  (forall a, In a l -> f (g a) = Some (h a)) -> omap f (map g l) = Some (map h l).
Proof.
  induction l; intro H; simpl; auto. rewrite H by (left; auto). rewrite IHl; auto.
  intros; apply H; right; auto.
Qed.
Lemma dec_byte_enc c : dec_byte (enc_N (Byte.to_N c)) = Some c.
Proof.
  unfold dec_byte. rewrite dec_uint_enc.
  - simpl. f_equal. apply b8_to_N. reflexivity.
  - pose proof (Byte.to_N_bounded c). change (2 ^ 8)%N with 256%N. lia.
Qed.
Lemma dec_arr32_enc b : length b = 32 -> dec_arr32 (enc_arr32 b) = Some b.
Proof.
  intro L. unfold dec_arr32, enc_arr32.
  rewrite (omap_map dec_byte _ (fun c => c)) by (intros; apply dec_byte_enc).
  rewrite map_id. cbn [option_map]. f_equal. rewrite <- L, firstn_app, firstn_all, Nat.sub_diag.
  rewrite firstn_O, app_nil_r. reflexivity.
Qed.
Lemma dec_slice_enc {A} (f : json -> option A) (g : A -> json) l :
  (forall a, In a l -> f (g a) = Some a) -> dec_slice f (JArr (map g l)) = Some l.
Proof.
  intro H. unfold dec_slice. rewrite (omap_map f g (fun a => a)); auto. rewrite map_id. reflexivity.
Qed.
