(** C94, continued: what a deployment with the actual hash functions and curve has to
    grant for the screen to be right (Prop_Fit.v, Prop_Real.v).

    Nothing is left of the laws; of the names in use two things are asked: none is
    hashed to the neutral element of the curve, and no two of them have VRF inputs
    whose SHAKE256 values agree in their first bits. *)
From Coq Require Import List NArith ZArith Lia Bool Arith.
From Coq Require Import String.
From Verif Require Import Base Utils Crypto Tree TreeSpec STR PAD PADSpec PADMain Protocol Directory DirSpec DirFacts DirMain Prop_Directory
  Auditor AudSpec AudFacts Client ClientSpec ClientFacts JointFacts Prop_Client Path Json JsonText Wire Text TextFacts ServerWire Conc Server ServerFacts Prop_Server Prop_Text Cli Prop_Cli Deploy DeployFacts Prop_Deploy BotDeploy Repl Prop_Repl Prop_Install Prop_Fit.
From Verif Require Import GoInt Field FieldSpec Scalar Fp EdGroup EdOrder Group EncFacts VRF VRFSpec VRFFacts Prop_VRF Prop_Nonce Ed25519 Prop_Ed25519 Hashes Prop_Real.
Import ListNotations.
Local Open Scope list_scope.
Local Open Scope nat_scope.
Notation length := List.length.

(** ** Sizes *)
Lemma real_prove strict vk m : exists H, H1 shake256 m H /\
  length (snd (@vrf_prove (RealCrypto strict) vk m)) = 96 /\
  @idx_of (RealCrypto strict) vk m = shake256 (encode (smul (clamped (firstn 32 (shake256 (seed32 vk) 64))) H) ++ m) 32.
Proof.
  assert (K : GenerateKey shake256 (Some (seed32 vk)) = Some (key_of shake256 vk)).
  { unfold key_of. rewrite (GenerateKey_ok shake256 C92_shake256_length (seed32 vk) (seed32_length vk)). reflexivity. }
  destruct (C77_nonce shake256 C92_shake256_length (seed32 vk) (key_of shake256 vk) m (seed32_length vk) K)
    as (H & s & t & HH & Ls & Lt & _ & EP & _).
  exists H. split; [exact HH|].
  unfold idx_of. cbn [vrf_prove RealCrypto EdCrypto CodeCrypto]. rewrite EP. cbn [fst snd].
  split; [|reflexivity]. rewrite !app_length, Ls, Lt, encode_length. reflexivity.
Qed.
Lemma real_proof_size strict vk m : length (snd (@vrf_prove (RealCrypto strict) vk m)) <= 96.
Proof. destruct (real_prove strict vk m) as (H & _ & L & _). rewrite L. apply le_n. Qed.
Lemma real_sign_pub strict sk : length (@sign_pub (RealCrypto strict) sk) = 32.
Proof.
  cbn [sign_pub RealCrypto EdCrypto CodeCrypto].
  exact (proj1 (C90_completeness sha512 C92_sha512_length strict (seed32 sk) [] (seed32_length sk))).
Qed.

(** ** What is hashed to the index of a name *)
(** crypto/vrf/vrf.go:91-104: [x] is the string hashed to the index of [name]: the
    encoded product of the secret scalar and the point of the name, and the name *)
Definition index_input (vk name x : bytes) : Prop :=
  exists H, H1 shake256 name H /\ x = encode (smul (clamped (firstn 32 (shake256 (seed32 vk) 64))) H) ++ name.
Theorem C94_index : forall strict vk name, exists x, index_input vk name x /\
  (forall y, index_input vk name y -> y = x) /\ @idx_of (RealCrypto strict) vk name = shake256 x 32.
Proof.
  intros strict vk name. destruct (real_prove strict vk name) as (H & HH & _ & E).
  eexists. split; [exists H; split; [exact HH|reflexivity]|]. split; [|exact E].
  intros y (H' & HH' & ->). rewrite (H1_unique shake256 name H' H HH' HH). reflexivity.
Qed.
Print Assumptions C94_index.
Lemma input_inj vk a b x : index_input vk a x -> index_input vk b x -> a = b.
Proof.
  intros (H & _ & E) (H' & _ & E'). rewrite E in E'. apply (f_equal (skipn 32)) in E'.
  rewrite !skipn_app, !encode_length, !skipn_all2, !Nat.sub_diag in E' by (rewrite encode_length; apply le_n). exact E'.
Qed.
(** Two names' inputs are different strings whose SHAKE256 values agree in the first [k] bits.
    No line of its own in /repo: what a client of crypto/vrf/vrf.go:91-104 must not find. *)
Definition index_collision (k : nat) (vk a b : bytes) : Prop :=
  exists x y, index_input vk a x /\ index_input vk b y /\ x <> y /\
    firstn k (ToBits (shake256 x 32)) = firstn k (ToBits (shake256 y 32)).
Lemma list_search {A} (P Q : A -> Prop) (l : list A) : (forall a, In a l -> P a \/ Q a) -> (forall a, In a l -> P a) \/ (exists a, In a l /\ Q a).
Proof.
  induction l as [|a l IH]; intro H; [left; intros a []|].
  destruct (H a (or_introl eq_refl)) as [PA|QA]; [|right; exists a; split; [left; reflexivity|exact QA]].
  destruct IH as [L|(b & I & QB)]; [intros b I; apply H; right; exact I| |].
  - left. intros b [<-|I]; [exact PA|exact (L b I)].
  - right. exists b. split; [right; exact I|exact QB].
Qed.
Theorem C94_spread_or_collision : forall strict k vk names,
  @vrf_spread (RealCrypto strict) k vk names \/ exists a b, In a names /\ In b names /\ a <> b /\ index_collision k vk a b.
Proof.
  intros strict k vk names.
  destruct (list_search (fun a => forall b, In b names ->
      firstn k (ToBits (@idx_of (RealCrypto strict) vk a)) = firstn k (ToBits (@idx_of (RealCrypto strict) vk b)) -> a = b)
    (fun a => exists b, In b names /\ a <> b /\ index_collision k vk a b) names) as [S|(a & Ia & b & Ib & N & X)].
  - intros a Ia. apply (list_search (fun b => _ -> a = b) (fun b => a <> b /\ index_collision k vk a b)). intros b Ib.
    destruct (C94_index strict vk a) as (x & Xa & _ & Ea). destruct (C94_index strict vk b) as (y & Xb & _ & Eb).
    rewrite Ea, Eb.
    destruct (list_eq_dec Byte.byte_eq_dec a b) as [->|N]; [left; intro; reflexivity|].
    destruct (list_eq_dec Bool.bool_dec (firstn k (ToBits (shake256 x 32))) (firstn k (ToBits (shake256 y 32)))) as [E|E]; [right|left; intro Q; destruct (E Q)].
    split; [exact N|]. exists x, y. split; [exact Xa|]. split; [exact Xb|]. split; [|exact E].
    intros ->. exact (N (input_inj vk a b y Xa Xb)).
  - left. intros a b Ia Ib E. exact (S a Ia b Ib E).
  - right. exists a, b. split; [exact Ia|]. split; [exact Ib|]. split; [exact N|exact X].
Qed.
Print Assumptions C94_spread_or_collision.
(** So all that honest operation needs of the VRF ([vrf_good]) is this. *)
Theorem C94_good_names : forall strict vk names,
  (forall n, In n names -> ~ H1 shake256 n pO) ->
  (forall a b, In a names -> In b names -> ~ index_collision 248 vk a b) ->
  @vrf_good (RealCrypto strict) vk names.
Proof.
  intros strict vk names NO NC. split.
  - destruct (C94_spread_or_collision strict 248 vk names) as [S|(a & b & Ia & Ib & _ & X)]; [exact S|destruct (NC a b Ia Ib X)].
  - intros n I. apply C92_proofs_accepted. exact (NO n I).
Qed.
Print Assumptions C94_good_names.

(** ** From [coniksserver init] to the screen, with the actual functions *)
(** As [C94_default_server]; of the hypotheses about cryptography only those about
    the names are left. *)
Theorem C94_real_server : forall strict T, TomlOk T -> let C := RealCrypto strict in forall a sk vk d cwd file net r1 r2 d0,
  @deployed C T a sk vk d -> length sk = 64 -> length vk = 64 -> utf8 (Path.Join (in_dir a) (key "config.toml")) ->
  locate cwd file = key "config.toml" :: home a -> locate_dir cwd file = home a -> locate cwd (in_dir a) = home a ->
  d (log_name :: home a) <> Some Folder -> d (str_name :: home a) = None -> tls_files d (home a) ->
  net (key "unix:///tmp/coniks.sock") = true -> net (key "tcp://0.0.0.0:3000") = true ->
  @Directory_New C 60 vk sk (N.to_nat 1000000) true r1 r2 = Ok d0 ->
  exists d' p, @run_server C T Fine net cwd d file r1 r2 = (d', Serving p) /\ sv_dir (pr_server p) = d0 /\
  forall host at_addr d2 cwdc filec enc cdoc debug,
  d2 (str_name :: home a) = d' (str_name :: home a) ->
  client_of T d2 cwdc filec cdoc (@sign_pub C sk) (str_name :: home a) ->
  usable host (cd_addr cdoc) = Ok true -> usable host (reg_of cdoc) = Ok true ->
  at_addr (reg_of cdoc) = 0 -> at_addr (cd_addr cdoc) <= 1 ->
  let perms := sv_perms (pr_server p) in
  exists conf st0, ClientLoad T cwdc d2 filec enc = Ok (Some conf) /\ repl_start conf debug = Ok st0 /\
  forall cmds evs, Forall2 spelled cmds evs ->
    no_missed_epoch 0 cmds -> Forall wf_command cmds -> few (calls perms cmds) -> deadlines_ok 60 (calls perms cmds) ->
    let names := flat_map looked_up cmds ++ names_of (calls perms cmds) in
    forall dep K, 0 < dep -> 130 * dep + 3 * K <= 6900 ->
    (forall n, In n names -> ~ H1 shake256 n pO) ->
    (forall n n', In n names -> In n' names -> ~ index_collision dep vk n n') ->
    keys_up_to K (calls perms cmds) -> Forall command_sizes cmds ->
    exists dn st, @session C host perms at_addr conf d0 st0 evs =
      Ok (dn, st, map (fun s => (debug, key "[+] " ++ message [] s)) (expected perms [] cmds)).
Proof.
  intros strict T TO C a sk vk d cwd file net r1 r2 d0 DE LS LV U L LD SAME LG ES TL N1 N2 ND.
  destruct (@C94_default_server C (C92_laws strict) (real_sign_pub strict) (fun vk m => real_proof_size strict vk m) T TO a sk vk d cwd file net r1 r2 d0 DE LS LV U L LD SAME LG ES TL N1 N2 ND)
    as (d' & p & R & SV & _ & _ & G).
  exists d', p. split; [exact R|]. split; [exact SV|].
  intros host at_addr d2 cwdc filec enc cdoc debug SD CO UA UR AR AA perms.
  destruct (G host at_addr d2 cwdc filec enc cdoc debug SD CO UA UR AR AA) as (conf & st0 & CL & ST & H).
  exists conf, st0. split; [exact CL|]. split; [exact ST|].
  intros cmds evs SP NM W F DL names dep K P0 SM NO NC KS Z.
  assert (SPR : @vrf_spread C dep vk names).
  { destruct (C94_spread_or_collision strict dep vk names) as [S|(n & n' & I & I' & _ & X)]; [exact S|destruct (NC n n' I I' X)]. }
  assert (D248 : dep <= 248) by (rewrite n6900 in SM; lia).
  apply (H cmds evs SP NM W F DL) with (dep := dep) (K := K); try assumption.
  - split; [exact (vrf_spread_le vk dep 248 _ D248 SPR)|]. intros n I. apply C92_proofs_accepted. exact (NO n I).
  - intros n n' I I'. apply SPR; apply in_or_app; right; assumption.
Qed.
Print Assumptions C94_real_server.

(** If only "bob" is ever registered or looked up, nothing at all is left to suppose
    about the cryptography, for all keys and all randomness. *)
Theorem C94_bob : forall strict T, TomlOk T -> let C := RealCrypto strict in forall a sk vk d cwd file net r1 r2 d0,
  @deployed C T a sk vk d -> length sk = 64 -> length vk = 64 -> utf8 (Path.Join (in_dir a) (key "config.toml")) ->
  locate cwd file = key "config.toml" :: home a -> locate_dir cwd file = home a -> locate cwd (in_dir a) = home a ->
  d (log_name :: home a) <> Some Folder -> d (str_name :: home a) = None -> tls_files d (home a) ->
  net (key "unix:///tmp/coniks.sock") = true -> net (key "tcp://0.0.0.0:3000") = true ->
  @Directory_New C 60 vk sk (N.to_nat 1000000) true r1 r2 = Ok d0 ->
  exists d' p, @run_server C T Fine net cwd d file r1 r2 = (d', Serving p) /\ sv_dir (pr_server p) = d0 /\
  forall host at_addr d2 cwdc filec enc cdoc debug,
  d2 (str_name :: home a) = d' (str_name :: home a) ->
  client_of T d2 cwdc filec cdoc (@sign_pub C sk) (str_name :: home a) ->
  usable host (cd_addr cdoc) = Ok true -> usable host (reg_of cdoc) = Ok true ->
  at_addr (reg_of cdoc) = 0 -> at_addr (cd_addr cdoc) <= 1 ->
  let perms := sv_perms (pr_server p) in
  exists conf st0, ClientLoad T cwdc d2 filec enc = Ok (Some conf) /\ repl_start conf debug = Ok st0 /\
  forall cmds evs, Forall2 spelled cmds evs ->
    no_missed_epoch 0 cmds -> Forall wf_command cmds -> few (calls perms cmds) -> deadlines_ok 60 (calls perms cmds) ->
    (forall n, In n (flat_map looked_up cmds ++ names_of (calls perms cmds)) -> n = bob) ->
    keys_up_to 2250 (calls perms cmds) ->
    exists dn st, @session C host perms at_addr conf d0 st0 evs =
      Ok (dn, st, map (fun s => (debug, key "[+] " ++ message [] s)) (expected perms [] cmds)).
Proof.
  intros strict T TO C a sk vk d cwd file net r1 r2 d0 DE LS LV U L LD SAME LG ES TL N1 N2 ND.
  destruct (C94_real_server strict T TO a sk vk d cwd file net r1 r2 d0 DE LS LV U L LD SAME LG ES TL N1 N2 ND)
    as (d' & p & R & SV & G).
  exists d', p. split; [exact R|]. split; [exact SV|].
  intros host at_addr d2 cwdc filec enc cdoc debug SD CO UA UR AR AA perms.
  destruct (G host at_addr d2 cwdc filec enc cdoc debug SD CO UA UR AR AA) as (conf & st0 & CL & ST & H).
  exists conf, st0. split; [exact CL|]. split; [exact ST|].
  intros cmds evs SP NM W F DL BOB KS.
  apply (H cmds evs SP NM W F DL 1 2250); try assumption.
  - apply le_n.
  - apply Nat.leb_le. vm_compute. reflexivity.
  - intros n I. rewrite (BOB n I). exact bob_proper.
  - intros n n' I I' (x & y & X & Y & N & _). rewrite (BOB n I) in X. rewrite (BOB n' I') in Y.
    destruct (C94_index strict vk bob) as (z & _ & UQ & _). apply N. rewrite (UQ x X), (UQ y Y). reflexivity.
  - apply Forall_forall. intros c I. assert (B3 : length bob <= 800) by (apply Nat.leb_le; vm_compute; reflexivity).
    destruct c as [op|r n k|n]; cbn [command_sizes]; [exact Logic.I| |].
    + rewrite (BOB n); [exact B3|]. apply in_or_app. right. apply in_flat_map. exists (DRegister (Some r) n k). split; [|left; reflexivity].
      apply in_flat_map. exists (KRegister r n k). split; [exact I|left; reflexivity].
    + rewrite (BOB n); [exact B3|]. apply in_or_app. left. apply in_flat_map. exists (KLookup n). split; [exact I|left; reflexivity].
Qed.
Print Assumptions C94_bob.

(** ** Cases *)
(** Commands about "bob" only, other users' requests among them, meet the hypotheses
    of [C94_bob]; and what the screen then shows. *)
Definition bob_cmds : list command :=
  [KLookup bob; KOther (OMsg 0 (Some (CreateRegistrationMsg bob (key "k0"))) (Some [x01])); KRegister [x02] bob (key "k1");
   KOther OTick; KLookup bob; KRegister [x03] bob (key "k0")].
Definition bob_events : list event :=
  [ELine [] (key "lookup bob"); EServer (OMsg 0 (Some (CreateRegistrationMsg bob (key "k0"))) (Some [x01])); ELine [x02] (key "register bob k1");
   EServer OTick; ELine [] (key " lookup  bob"); ELine [x03] (key "register bob k0")].
Example C94_bob_case : Forall2 spelled bob_cmds bob_events /\ no_missed_epoch 0 bob_cmds /\ Forall wf_command bob_cmds /\
  few (calls perms_ex bob_cmds) /\ deadlines_ok 60 (calls perms_ex bob_cmds) /\
  (forall n, In n (flat_map looked_up bob_cmds ++ names_of (calls perms_ex bob_cmds)) -> n = bob) /\
  keys_up_to 2250 (calls perms_ex bob_cmds) /\
  map (fun s => key "[+] " ++ message [] s) (expected perms_ex [] bob_cmds) =
    [key "[+] Name isn't registered."; key "[+] Are you trying to update your binding? Unfortunately, KeyChange isn't supported yet.";
     key "[+] Found! Key bound to name is: []"; key "[+] Name is already registered."].
Proof.
  assert (E : calls perms_ex bob_cmds = [DRegister (Some [x01]) bob (key "k0"); DRegister (Some [x02]) bob (key "k1"); DUpdate; DRegister (Some [x03]) bob (key "k0")]) by (vm_compute; reflexivity).
  rewrite E. split.
  { repeat (apply Forall2_cons; [first [reflexivity | split; vm_compute; reflexivity | vm_compute; reflexivity]|]). constructor. }
  split; [cbn; auto|]. split.
  { assert (U : utf8 bob) by (change bob with (key "bob"); apply key_utf8; reflexivity).
    repeat (apply Forall_cons; [first [exact Logic.I|split; [exact U|first [discriminate|split; discriminate]]]|]). constructor. }
  split; [reflexivity|]. split.
  { split; [reflexivity|]. intros t H. cbn [In app] in H. repeat (destruct H as [H|H]; [discriminate H|]). destruct H. }
  split. { intros n I. cbn [bob_cmds flat_map looked_up app names_of op_names In] in I. repeat (destruct I as [I|I]; [symmetry; exact I|]). destruct I. }
  split; [|vm_compute; reflexivity].
  intros r n k I. cbn [In] in I.
  repeat (destruct I as [I|I]; [try discriminate I; injection I as _ _ <-; apply Nat.leb_le; vm_compute; reflexivity|]). destruct I.
Qed.
