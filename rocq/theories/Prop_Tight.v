(** Further theorems for C79 and C84, found missing by testing against wrong programs:
    how socket addresses are read, and what the words, texts and the end of the command
    line client are.  Each is stated against a description of its own. *)
From Coq Require Import List NArith ZArith Lia Bool Arith.
From Coq Require Import String.
From Verif Require Import Base Utils Crypto Tree STR PAD Protocol Directory DirSpec Path Json JsonText Wire Text Client Conc Server Bot Cli
  Deploy DeployFacts BotDeploy Prop_BotDeploy Repl Prop_Repl.
Import ListNotations.
Local Open Scope list_scope.
Local Open Scope nat_scope.
Notation length := List.length.

(** ** Escapes in addresses (C79) *)
(** RFC 3986: each byte as '%' and two hexadecimal digits of either case. *)
Definition digit (upper : bool) (n : nat) : byte := nth n (key (if upper then "0123456789ABCDEF" else "0123456789abcdef")) x00.
Definition escaped (x : byte * bool * bool) : bytes :=
  let '(b, u, v) := x in let n := N.to_nat (Byte.to_N b) in [x25; digit u (n / 16); digit v (n mod 16)].
Theorem C79_escapes : forall l, unescape (flat_map escaped l) = Some (map (fun x => fst (fst x)) l).
Proof.
  induction l as [|[[b u] v] l IH]; [reflexivity|]. cbn [flat_map map fst].
  assert (E : match hexval (digit u (N.to_nat (Byte.to_N b) / 16)), hexval (digit v (N.to_nat (Byte.to_N b) mod 16)) with
              | Some x, Some y => Some (byte_of (16 * x + y)) | _, _ => None end = Some b)
    by (destruct u, v; destruct b; vm_compute; reflexivity).
  unfold escaped. cbv zeta. cbn [app unescape]. rewrite (proj2 (byte_eqb_eq x25 x25) eq_refl). cbn iota.
  set (a := digit u (N.to_nat (Byte.to_N b) / 16)) in *. set (c := digit v (N.to_nat (Byte.to_N b) mod 16)) in *. clearbody a c.
  destruct (hexval a) as [x|]; [|discriminate E]. destruct (hexval c) as [y|]; [|discriminate E].
  set (z := byte_of (16 * x + y)) in *. clearbody z. injection E as ->. change (option_map (cons b) (unescape (flat_map escaped l)) = Some (b :: map (fun x => fst (fst x)) l)).
  rewrite IH. reflexivity.
Qed.
Print Assumptions C79_escapes.

(** ** Which names are sockets in the file system, and where (C79) *)
Theorem C79_socket_names : forall cwd name q, socket_at cwd name = Some q <->
  1 <= length name <= 107 /\ nth 0 name x00 <> x40 /\ q = locate cwd name.
Proof.
  intros cwd [|c name] q; cbn [socket_at length nth]; [split; [intro X; discriminate X|intros ((X & _) & _); lia]|].
  destruct (byte_eqb c x40) eqn:E.
  { apply byte_eqb_eq in E. split; [intro X; discriminate X|intros (_ & X & _); congruence]. }
  assert (N : c <> x40) by (intros ->; rewrite (proj2 (byte_eqb_eq x40 x40) eq_refl) in E; discriminate E).
  change (length (c :: name)) with (S (length name)).
  destruct (Nat.leb_spec 108 (S (length name))) as [L|L].
  - split; [intro X; discriminate X|intros ((_ & X) & _); lia].
  - split; [intro X; injection X as <-; repeat split; [lia|lia|exact N]|intros (_ & _ & ->); reflexivity].
Qed.
Print Assumptions C79_socket_names.

(** A proxy configured with a bare name reaches the socket of this name in its own
    working directory. *)
Theorem C79_relative_name : forall cwd w handle socks, name_ok w = true -> length w <= 107 -> nth 0 w x00 <> x40 ->
  reaches (mkTwitterBot cwd w handle) socks = who_listens socks (w :: cwd).
Proof.
  intros cwd w handle socks N L A. pose proof (name_ok_is w N) as (D1 & D2 & NS).
  assert (NE : w <> []) by (intros ->; discriminate N).
  assert (E : locate cwd w = w :: cwd).
  { unfold locate. rewrite split_one by exact NS. rewrite noslash_IsAbs by exact NS. cbn [walk fold_left]. apply go_name; assumption. }
  unfold reaches. cbn [tb_cwd tb_address].
  assert (S : socket_at cwd w = Some (w :: cwd)).
  { apply C79_socket_names. split; [split; [destruct w; [congruence|cbn; lia]|exact L]|]. split; [exact A|symmetry; exact E]. }
  rewrite S. reflexivity.
Qed.
Print Assumptions C79_relative_name.

(** The number under which a socket is listened on is the place in the configuration of
    an address whose path it is: so the permissions that apply are those of this address. *)
Theorem C79_socket_owner : forall host cwd conns q i, In (q, i) (listening host cwd 0 conns) <->
  exists c allow path, nth_error conns i = Some (c, allow) /\ scheme (cn_addr c) = Some (key "unix") /\
    url_path host (cn_addr c) = Some path /\ socket_at cwd path = Some q.
Proof.
  intros host cwd conns q i.
  assert (G : forall l k, In (q, i) (listening host cwd k l) <->
    k <= i /\ exists c allow path, nth_error l (i - k) = Some (c, allow) /\ scheme (cn_addr c) = Some (key "unix") /\
      url_path host (cn_addr c) = Some path /\ socket_at cwd path = Some q).
  { induction l as [|[c al] l IH]; intro k; cbn [listening].
    - split; [intros []|]. intros (_ & c & al & path & E & _). destruct (i - k); discriminate E.
    - rewrite in_app_iff, IH. split.
      + intros [I|(L & c' & al' & path & E & R)].
        * destruct (scheme (cn_addr c)) as [s|] eqn:S; [|destruct I]. destruct (beq s (key "unix")) eqn:B; [|destruct I].
          apply beq_eq in B. subst s. destruct (url_path host (cn_addr c)) as [path|] eqn:U; [|destruct I]. cbn [obind] in I.
          destruct (socket_at cwd path) as [p|] eqn:A; [|destruct I]. destruct I as [I|[]]. injection I as -> ->.
          split; [lia|]. exists c, al, path. rewrite Nat.sub_diag. auto.
        * split; [lia|]. exists c', al', path. replace (i - k) with (S (i - S k)) by lia. auto.
      + intros (L & c' & al' & path & E & SC & U & A). destruct (Nat.eq_dec i k) as [->|NE].
        * left. rewrite Nat.sub_diag in E. cbn [nth_error] in E. injection E as -> ->. rewrite SC, beq_refl, U. cbn [obind]. rewrite A. left. reflexivity.
        * right. split; [lia|]. exists c', al', path. replace (i - k) with (S (i - S k)) in E by lia. auto. }
  rewrite (G conns 0), Nat.sub_0_r. split; [intros (_ & X); exact X|intro X; split; [lia|exact X]].
Qed.
Print Assumptions C79_socket_owner.

(** ** Spaces between words (C84) *)
(** UTF-8 (RFC 3629) for code points up to U+FFFF, and the characters with the Unicode
    property White_Space. *)
Definition utf8_of (c : N) : bytes :=
  let b n := match Byte.of_N n with Some b => b | None => x00 end in
  (if c <? 128 then [b c]
   else if c <? 2048 then [b (192 + c / 64); b (128 + c mod 64)]
   else [b (224 + c / 4096); b (128 + (c / 64) mod 64); b (128 + c mod 64)])%N.
Definition white_space : list N :=
  [9; 10; 11; 12; 13; 32; 133; 160; 5760; 8192; 8193; 8194; 8195; 8196; 8197; 8198; 8199; 8200; 8201; 8202; 8232; 8233; 8239; 8287; 12288]%N.
Theorem C84_spaces : forall r, is_space r = true <-> In r (map utf8_of white_space).
Proof.
  intro r.
  set (l := map utf8_of white_space).
  assert (L : l = [[x09]; [x0a]; [x0b]; [x0c]; [x0d]; [x20]; [xc2; x85]; [xc2; xa0]; [xe1; x9a; x80];
    [xe2; x80; x80]; [xe2; x80; x81]; [xe2; x80; x82]; [xe2; x80; x83]; [xe2; x80; x84]; [xe2; x80; x85]; [xe2; x80; x86]; [xe2; x80; x87];
    [xe2; x80; x88]; [xe2; x80; x89]; [xe2; x80; x8a]; [xe2; x80; xa8]; [xe2; x80; xa9]; [xe2; x80; xaf]; [xe2; x81; x9f]; [xe3; x80; x80]])
    by (vm_compute; reflexivity).
  clearbody l. subst l. split.
  - destruct r as [|a [|b [|c [|d r]]]]; intro H; [discriminate H| | | |discriminate H].
    + cbn [is_space] in H. destruct a; try (vm_compute in H; discriminate H); vm_compute; tauto.
    + cbn [is_space] in H. apply andb_true_iff in H as (A & B). apply byte_eqb_eq in A. subst a.
      apply orb_true_iff in B as [B|B]; apply byte_eqb_eq in B; subst b; vm_compute; tauto.
    + cbn [is_space] in H. rewrite !orb_true_iff, !andb_true_iff, !orb_true_iff in H.
      destruct H as [[[((A & B) & D)|((A & B) & D)]|((A & B) & D)]|((A & B) & D)]; apply byte_eqb_eq in A, B; subst a b.
      * apply byte_eqb_eq in D; subst c. cbn [In]. tauto.
      * destruct D as [[[D|D]|D]|D]; [|apply byte_eqb_eq in D; subst c; cbn [In]; tauto..].
        destruct c; try (vm_compute in D; discriminate D); cbn [In]; tauto.
      * apply byte_eqb_eq in D; subst c. cbn [In]. tauto.
      * apply byte_eqb_eq in D; subst c. cbn [In]. tauto.
  - cbn [In]. intro H. repeat (destruct H as [<-|H]; [vm_compute; reflexivity|]). destruct H.
Qed.
Print Assumptions C84_spaces.

(** ** Texts of the codes (C84) *)
(** Every code that a directory, an auditor or a check gives, except one, has a text, and
    the texts are pairwise different: what the user reads says which it was. *)
Definition codes_with_text : list ErrorCode :=
  [ReqSuccess; ReqNameExisted; ReqNameNotFound; ErrDirectory; ErrAuditLog; ErrMalformedMessage; CheckBadSignature; CheckBadVRFProof;
   CheckBindingsDiffer; CheckBadCommitment; CheckBadLookupIndex; CheckBadAuthPath; CheckBadSTR; CheckBadPromise; CheckBrokenPromise].
Theorem C84_texts_differ : NoDup (map error_text codes_with_text) /\ ~ In [] (map error_text codes_with_text) /\
  forall e, error_text e <> [] <-> In e codes_with_text.
Proof.
  split; [|split].
  - vm_compute.
    repeat (constructor; [intro H; repeat (destruct H as [H|H]; [discriminate H|]); exact H|]). constructor.
  - vm_compute. intro H. repeat (destruct H as [H|H]; [discriminate H|]); exact H.
  - intro e. unfold error_text, codes_with_text. cbn [In].
    repeat match goal with |- context [if Z.eqb e ?b then _ else _] =>
      destruct (Z.eqb_spec e b) as [->|]; [split; [intros _; tauto|intros _ X; vm_compute in X; discriminate X]|] end.
    split; [intro X; exfalso; apply X; reflexivity|]. intro H. exfalso. intuition congruence.
Qed.
Print Assumptions C84_texts_differ.

(** ** Leaving (C84) *)
(** A line whose first word is "exit" or "q" ends the session, whatever follows and
    whatever would still be typed; nothing is sent; no other line ends it. *)
Theorem C84_exit : forall (C : Crypto) host conf st line x,
  (forall w ws, Fields line = w :: ws -> w = key "exit" \/ w = key "q" ->
     forall l, repl_run host conf st ((line, x) :: l) = Ok (st, [(rp_debug st, key "[+] See ya.")], [])) /\
  (forall e, turn host conf st line x = Ok e -> ef_on e = false -> exists ws, Fields line = key "exit" :: ws \/ Fields line = key "q" :: ws).
Proof.
  intros C host conf st line x. split.
  - intros w ws F W l. cbn [repl_run]. unfold turn. rewrite F.
    assert (E : beq w (key "exit") || beq w (key "q") = true) by (destruct W as [->| ->]; reflexivity).
    rewrite E. reflexivity.
  - intros e T O. unfold turn in T. destruct (Fields line) as [|w ws] eqn:F; [injection T as <-; discriminate O|].
    destruct (beq w (key "exit") || beq w (key "q")) eqn:E.
    { apply orb_true_iff in E. exists ws. destruct E as [E|E]; apply beq_eq in E; subst w; auto. }
    exfalso. destruct (beq w (key "help")); [injection T as <-; discriminate O|].
    destruct (beq w (key "enable") || beq w (key "disable")).
    { destruct ws as [|y [|]]; [injection T as <-; discriminate O| |injection T as <-; discriminate O].
      destruct (beq y (key "timestamp")); injection T as <-; discriminate O. }
    destruct (beq w (key "register")).
    { destruct ws as [|n [|k [|]]]; try (injection T as <-; discriminate O).
      unfold do_register in T.
      repeat match type of T with
      | (if ?b then _ else _) = _ => destruct b
      | match ?b with _ => _ end = _ => destruct b
      | bind ?b _ = _ => destruct b; cbn [bind] in T
      | Ok _ = Ok _ => injection T as <-; discriminate O
      | Panic = _ => discriminate T
      end. }
    destruct (beq w (key "lookup")); [|injection T as <-; discriminate O].
    destruct ws as [|n [|]]; try (injection T as <-; discriminate O).
    unfold do_lookup in T.
    repeat match type of T with
      | (if ?b then _ else _) = _ => destruct b
      | match ?b with _ => _ end = _ => destruct b
      | bind ?b _ = _ => destruct b; cbn [bind] in T
      | Ok _ = Ok _ => injection T as <-; discriminate O
      | Panic = _ => discriminate T
      end.
Qed.
Print Assumptions C84_exit.

(** ** Cases *)
Example C79_relative_case : name_ok (key "coniks.sock") = true /\ length (key "coniks.sock") <= 107 /\ nth 0 (key "coniks.sock") x00 <> x40.
Proof. split; [reflexivity|]. split; [apply Nat.leb_le; reflexivity|]. intro X; discriminate X. Qed.
Example C84_exit_case : Fields (key "  q now") = key "q" :: [key "now"].
Proof. vm_compute. reflexivity. Qed.
