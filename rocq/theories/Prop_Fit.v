(** C94: the message limit discharged.

    Up to here the theorems about whole sessions (C84, C86) supposed that no text on
    the connection exceeds 8192 bytes.  Here that is derived from what a user can
    see: how far the names' indices are spread, how long names and keys are. *)
From Coq Require Import List NArith ZArith Lia Bool Arith.
From Coq Require Import String.
From Verif Require Import Base Utils Crypto Tree TreeFacts TreeSpec TreeHist PathFacts SoundFacts TreeMain
  STR PAD PADSpec PADFacts PADMain Protocol Directory DirSpec DirFacts DirMain Prop_Directory
  Auditor AudSpec AudFacts Client ClientSpec ClientFacts JointFacts Prop_Client Path Json JsonText Wire Text TextFacts
  ServerWire Conc Server ServerFacts Prop_Server Prop_Text Cli Prop_Cli Deploy DeployFacts Prop_Deploy BotDeploy Repl Prop_Repl Prop_Install.
Import ListNotations.
Local Open Scope list_scope.
Local Open Scope nat_scope.
Notation length := List.length.

(** ** Depth *)

(** no line of its own in /repo: all branches end at level [k] or above *)
Fixpoint deep (k : nat) (n : Tree.node) : Prop :=
  match n with
  | Empty lvl _ | Leaf lvl _ => lvl <= k
  | Interior _ _ _ l r => deep k l /\ deep k r
  end.
Lemma spread_deep nb k n : forall pre,
  wf nb pre n -> dense n -> length pre <= k ->
  spread k (fun i => exists d, In d (leaves n) /\ l_index d = i) -> deep k n.
Proof.
  induction n as [lvl i|lvl d|lvl lh rh l IHl r IHr]; intros pre W D L S.
  - cbn [wf deep] in *. lia.
  - cbn [wf deep] in *. lia.
  - pose proof (dense_interior_two _ _ _ _ _ _ _ _ eq_refl W D) as (a & b & Ia & Ib & N).
    pose proof (wf_leaves _ _ _ _ W Ia) as [_ Pa]. pose proof (wf_leaves _ _ _ _ W Ib) as [_ Pb].
    assert (LT : length pre < k).
    { destruct (Nat.lt_ge_cases (length pre) k); auto. exfalso. apply N. apply S; [eauto|eauto|].
      apply (firstn_le_eq k (length pre)); auto. congruence. }
    cbn [wf dense] in W, D. destruct W as (_ & _ & Wl & Wr), D as (_ & Dl & Dr).
    cbn [deep]. split.
    + apply (IHl _ Wl Dl); [rewrite app_length; cbn [List.length]; lia|].
      intros x y (dx & Ix & Ex) (dy & Iy & Ey). apply S; [exists dx|exists dy]; cbn [leaves]; rewrite in_app_iff; auto.
    + apply (IHr _ Wr Dr); [rewrite app_length; cbn [List.length]; lia|].
      intros x y (dx & Ix & Ex) (dy & Iy & Ey). apply S; [exists dx|exists dy]; cbn [leaves]; rewrite in_app_iff; auto.
Qed.
Lemma spread_deep_root nb k n :
  0 < k -> wf nb [] n -> root_dense n ->
  spread k (fun i => exists d, In d (leaves n) /\ l_index d = i) -> deep k n.
Proof.
  intros P W D S. destruct n as [| |lvl lh rh l r]; cbn [root_dense] in D; try tauto.
  cbn [wf] in W. destruct W as (_ & _ & Wl & Wr), D as (Dl & Dr). cbn [deep]. split.
  - apply (spread_deep _ _ _ _ Wl Dl); [cbn [app List.length]; lia|].
    intros x y (dx & Ix & Ex) (dy & Iy & Ey). apply S; [exists dx|exists dy]; cbn [leaves]; rewrite in_app_iff; auto.
  - apply (spread_deep _ _ _ _ Wr Dr); [cbn [app List.length]; lia|].
    intros x y (dx & Ix & Ex) (dy & Iy & Ey). apply S; [exists dx|exists dy]; cbn [leaves]; rewrite in_app_iff; auto.
Qed.
Lemma get_loop_deep k n : forall bits acc dd ps lf,
  deep k n -> get_loop bits dd n acc = Ok (ps, lf) -> deep k lf.
Proof.
  induction n as [| |? ? ? l IHl r IHr]; intros bits acc dd ps lf SH E1; cbn [get_loop] in E1;
    try (injection E1 as _ <-; exact SH).
  destruct (index bits dd) as [[|]|]; cbn [bind] in E1; try discriminate; cbn [deep] in SH.
  - eapply IHr; [|exact E1]. tauto.
  - eapply IHl; [|exact E1]. tauto.
Qed.

Section Depth.
  Context {C : Crypto} (OK : CryptoOk C).

  Lemma get_depth nb k m f i ap : tree_inv nb m f -> length i = nb -> 0 < k -> spread k (fun j => f j <> None) ->
    Get m i = Ok ap -> length (ap_pruned ap) <= k.
  Proof.
    intros I L P S G.
    destruct (get_inv OK nb m f i I L) as (ap' & leaf & G' & AL & _ & _ & Lp & _).
    rewrite G in G'. injection G' as <-. rewrite Lp.
    assert (DP : deep k (t_root m)).
    { apply (spread_deep_root nb); [exact P|exact (ti_wf _ _ _ I)|exact (ti_dense _ _ _ I)|].
      intros x y (dx & Ix & Ex) (dy & Iy & Ey).
      apply (ti_leaves _ _ _ I) in Ix, Iy. destruct Ix as (jx & bx & Fx & ->), Iy as (jy & bY & Fy & ->).
      cbn [leaf_of l_index] in Ex, Ey. subst x y. apply S; congruence. }
    unfold Get in G. destruct (get_loop (ToBits i) 0 (t_root m) []) as [[ps lf]|] eqn:E1; cbn [bind] in G; [|discriminate G].
    pose proof (get_loop_deep _ _ _ _ _ _ _ DP E1) as DL.
    destruct (proof_leaf i lf) as [pl|] eqn:PL; cbn [bind] in G; [|discriminate G].
    injection G as <-. cbn [ap_leaf] in AL. injection AL as ->.
    destruct lf as [lvl ix|lvl d|]; cbn [proof_leaf deep] in *.
    - injection PL as <-. exact DL.
    - destruct (beq (l_index d) i); injection PL as <-; exact DL.
    - discriminate PL.
  Qed.

  Variables (dl0 : N) (vk sk : bytes) (size : nat).
  Lemma lookup_depth d ops pops hist e name ap k : dir_inv dl0 vk sk size d ops pops hist ->
    LookupInEpoch (dr_pad d) name e = Ok (Some ap) -> 0 < k -> vrf_spread k vk (names_of ops) -> length (ap_pruned ap) <= k.
  Proof.
    intros I E P S. pose proof (di_keys _ _ _ _ _ _ _ _ I) as KS. destruct I. revert E. unfold LookupInEpoch.
    destruct (GetSTR (dr_pad d) e) as [s|] eqn:G; [|intro H; discriminate H].
    destruct (getstr_hist _ _ _ _ _ _ _ _ _ _ di_pad G) as (k0 & N & _).
    pose proof (pi_hist _ _ _ _ _ _ _ _ di_pad _ _ N) as SO.
    rewrite (pi_vrf _ _ _ _ _ _ _ _ di_pad).
    assert (LI : length (fst (vrf_prove vk name)) = 32) by (apply ok_vrf_len; exact OK).
    destruct (vrf_prove vk name) as [ix pr] eqn:VP. cbn [fst snd] in *.
    pose proof (so_tree _ _ _ _ _ _ _ _ SO) as TI.
    destruct (Get (st_tree s) ix) as [ap'|] eqn:E; cbn [bind]; [|intro H; discriminate H].
    intro H. injection H as <-. cbn [ap_pruned].
    apply (get_depth 32 k _ _ ix _ TI LI P); [|exact E].
    intros x y Hx Hy X.
    destruct (last_set (tops vk (upto k0 pops)) x) as [bx|] eqn:Ex; [|destruct (Hx eq_refl)].
    destruct (last_set (tops vk (upto k0 pops)) y) as [bY|] eqn:Ey; [|destruct (Hy eq_refl)].
    apply last_set_stored in Ex, Ey. destruct Ex as (k1 & I1 & ->), Ey as (k2 & I2 & ->).
    f_equal. apply S; [apply KS; eapply keys_upto; eauto|apply KS; eapply keys_upto; eauto|exact X].
  Qed.
End Depth.

(** Every path that a directory serves, in whatever answer, has at most [k] hashes if the
    indices of the names registered so far differ in their first [k] bits.
    protocol/message.go:142-146: the authentication paths in a DirectoryProof. *)
Definition paths_of (resp : Response) : list AuthPath :=
  match r_df resp with
  | Some (DProof (Some p)) => flat_map (fun o => match o with Some ap => [ap] | None => [] end) (dp_ap p)
  | _ => []
  end.
Theorem C94_path_depth : forall (C : Crypto), CryptoOk C ->
  forall dl0 vk sk size r1 r2 ops d, dir_built dl0 vk sk size r1 r2 ops d -> few ops ->
  forall k, 0 < k -> vrf_spread k vk (names_of ops) ->
  forall r b d' resp ap, directory_answer d r b = Ok (d', resp) -> In ap (paths_of resp) -> length (ap_pruned ap) <= k.
Proof.
  intros C OK dl0 vk sk size r1 r2 ops d B F k P S r b d' resp ap A.
  assert (F' : (N.of_nat (dupdates ops) < two64)%N) by (unfold few, two64 in *; lia).
  destruct (built_dir_inv OK _ _ _ _ _ _ _ _ B F') as (pops & hist & I & _ & _).
  assert (LD : forall name e x, LookupInEpoch (dr_pad d) name e = Ok (Some x) -> length (ap_pruned x) <= k).
  { intros name e x E. exact (lookup_depth OK _ _ _ _ _ _ _ _ _ _ _ _ I E P S). }
  assert (MON : forall name eps aps strs, monitor_loop d name eps = Ok (Some (aps, strs)) -> forall x, In x aps -> length (ap_pruned x) <= k).
  { intros name. induction eps as [|ep eps IH]; intros aps strs; cbn [monitor_loop].
    { intro H; injection H as <- <-. intros x []. }
    destruct (LookupInEpoch (dr_pad d) name ep) as [[x|]|] eqn:E; cbn [bind];
      [|intro H; discriminate H|intro H; discriminate H].
    destruct (NewDirSTR' (GetSTR (dr_pad d) ep)) as [y|]; cbn [bind]; [|intro H; discriminate H].
    destruct (monitor_loop d name eps) as [[[a s]|]|]; cbn [bind option_map];
      [|intro H; discriminate H|intro H; discriminate H].
    intro H; injection H as <- <-. cbn [fst snd]. intros z [<-|H]; [exact (LD _ _ _ E)|exact (IH _ _ eq_refl z H)]. }
  destruct b as [n key u v|n|n e|n s e|n s|a|x]; cbn [directory_answer] in A.
  - revert A. unfold Register, Lookup. destruct (_ || _); [intro H; injection H as <- <-; intros []|].
    destruct (LookupInEpoch (dr_pad d) n _) as [[x|]|] eqn:E; cbn [bind]; [|intro H; injection H as <- <-; intros []|intro H; discriminate H].
    specialize (LD _ _ _ E).
    destruct (leaf_matches x) as [[]|]; cbn [bind]; [| |intro H; discriminate H]; [intro H; injection H as <- <-; intros [<-|[]]; exact LD|].
    destruct (if dr_useTBs d then _ else None); [intro H; injection H as <- <-; intros [<-|[]]; exact LD|].
    destruct (PAD_Set _ _ _ _) as [[pad|]|]; cbn [bind]; intro H; [injection H as <- <-; intros [<-|[]]; exact LD|injection H as <- <-; intros []|discriminate H].
  - revert A. unfold KeyLookup, Lookup. destruct (is_nil n); [cbn [bind]; intro H; injection H as <- <-; intros []|].
    destruct (LookupInEpoch (dr_pad d) n _) as [[x|]|] eqn:E; cbn [bind]; [|intro H; injection H as <- <-; intros []|intro H; discriminate H].
    specialize (LD _ _ _ E).
    destruct (leaf_matches x) as [[]|]; cbn [bind]; [| |intro H; discriminate H]; [intro H; injection H as <- <-; intros [<-|[]]; exact LD|].
    destruct (if dr_useTBs d then _ else None); cbn [bind]; intro H; injection H as <- <-; intros [<-|[]]; exact LD.
  - revert A. unfold KeyLookupInEpoch. destruct (_ || _); [cbn [bind]; intro H; injection H as <- <-; intros []|].
    destruct (LookupInEpoch (dr_pad d) n e) as [[x|]|] eqn:E; cbn [bind]; [|intro H; injection H as <- <-; intros []|intro H; discriminate H].
    specialize (LD _ _ _ E).
    destruct (epochs _ _); cbn [bind]; [|intro H; discriminate H]. destruct (mapM _ _); cbn [bind]; [|intro H; discriminate H].
    destruct (leaf_matches x) as [[]|]; cbn [bind]; intro H; [| |discriminate H]; injection H as <- <-; intros [<-|[]]; exact LD.
  - revert A. unfold Monitor. destruct (_ || _); [cbn [bind]; intro H; injection H as <- <-; intros []|].
    destruct (epochs _ _) as [eps|]; cbn [bind]; [|intro H; discriminate H].
    destruct (monitor_loop d n eps) as [[[aps strs]|]|] eqn:M; cbn [bind]; [| |intro H; discriminate H].
    + intro H; injection H as <- <-. unfold paths_of, NewMonitoringProof. cbn [r_df dp_ap].
      intro J. apply in_flat_map in J as (o & Io & Ja). apply in_map_iff in Io as (z & <- & Iz). destruct Ja as [<-|[]].
      exact (MON _ _ _ _ M z Iz).
    + intro H; injection H as <- <-. intros [].
  - injection A as <- <-. intros [].
  - injection A as <- <-. intros [].
  - injection A as <- <-. intros [].
Qed.
Print Assumptions C94_path_depth.

(** ** Sizes of requests and answers *)

Lemma escape_len s : length (escape s) <= 6 * length s.
Proof.
  assert (G : forall n s, length s <= n -> length (escape s) <= 6 * length s); [|exact (G _ s (le_n _))]. clear s.
  induction n as [|n IH]; intros [|b s] L; cbn [List.length] in L; try (cbn; lia).
  cbn [escape]. assert (ONE : length (b :: escape s) <= 6 * length (b :: s)).
  { cbn [List.length]. specialize (IH s ltac:(lia)). lia. }
  destruct (in_rng 0 127 b).
  { rewrite app_length. specialize (IH s ltac:(lia)). cbn [List.length].
    assert (E : length (escape1 b) <= 6).
    { unfold escape1. repeat match goal with |- context [if ?c then _ else _] => destruct c end; cbn [List.length]; lia. }
    lia. }
  destruct (byte_eqb b xe2); [|exact ONE].
  destruct s as [|b1 [|b2 s]]; [exact ONE|exact ONE|].
  destruct (_ && _); [|exact ONE]. rewrite app_length. cbn [List.length] in *. specialize (IH s ltac:(lia)). lia.
Qed.
(** Requests for names of any UTF-8 text: up to 800 bytes, with keys up to 2300. *)
Theorem C94_requests_fit : forall n k, utf8 n -> length n <= 800 -> length k <= 2300 ->
  length (json_text (CreateRegistrationMsg n k)) <= 8192 /\ length (json_text (CreateKeyLookupMsg n)) <= 8192.
Proof.
  intros n k U LN LK. change (length (json_text ?r)) with (tlen r). unfold CreateRegistrationMsg, CreateKeyLookupMsg, MarshalRequest.
  assert (N : tlen (enc_string n) <= 2 + 6 * 800).
  { unfold enc_string. rewrite utf8_coerce_id by exact U. unfold tlen. cbn [json_text]. unfold quoted.
    cbn [List.length]. rewrite app_length. cbn [List.length]. pose proof (escape_len n). lia. }
  pose proof (tlen_bytes_le k 2300 LK) as K. replace (4 + 4 * ((2300 + 2) / 3)) with 3072 in K by (vm_compute; reflexivity).
  rewrite n8192. change (tlen (JInt RegistrationType)) with 1. change (tlen (JInt KeyLookupType)) with 1.
  split; sz; cbn [enc_body app]; sz; [|change (tlen (enc_bytes [])) with 4];
    change (tlen (JInt RegistrationType)) with 1; change (tlen (JInt KeyLookupType)) with 1; lia.
Qed.
Print Assumptions C94_requests_fit.

(** All keys for which registration was requested have at most [K] bytes.
    No line of its own in /repo: a condition on the histories quantified over. *)
Definition keys_up_to (K : nat) (ops : list dir_op) : Prop := forall r n k, In (DRegister r n k) ops -> length k <= K.
Lemma reg_requested ops : forall n v, reg ops n = Some v -> exists r, In (DRegister r n v) ops.
Proof.
  induction ops as [|op ops IH] using rev_ind; intros n v H; [discriminate H|].
  assert (OLD : reg ops n = Some v -> exists r, In (DRegister r n v) (ops ++ [op])).
  { intro E. destruct (IH n v E) as (r & I). exists r. apply in_or_app. left. exact I. }
  rewrite reg_app in H. cbn [fold_left] in H. destruct op as [[r|] name key| |]; cbn [reg_step] in H; try exact (OLD H).
  destruct (is_nil name || is_nil key); [exact (OLD H)|].
  destruct (beq_spec n name) as [->|N]; [|exact (OLD H)].
  destruct (reg ops name) as [w|] eqn:E; [injection H as ->; exact (OLD eq_refl)|].
  injection H as <-. exists (Some r). apply in_or_app. right. left. reflexivity.
Qed.
Lemma path_len_depth resp k : (forall ap, In ap (paths_of resp) -> length (ap_pruned ap) <= k) -> path_len resp <= k.
Proof.
  unfold paths_of, path_len. intro H. destruct (r_df resp) as [[[p|]|l]|]; try lia.
  destruct (dp_ap p) as [|[ap|] [|? ?]]; try lia. apply H. left. reflexivity.
Qed.

Section Fit.
  Context {C : Crypto} (OK : CryptoOk C).
  Variables (dl0 : N) (vk sk : bytes) (size : nat) (r1 r2 : option bytes) (ops : list dir_op) (d : Directory).
  Hypothesis B : dir_built dl0 vk sk size r1 r2 ops d.
  Hypothesis F : few ops.
  Hypothesis D : deadlines_ok dl0 ops.
  Hypothesis VL : forall m, length (snd (vrf_prove vk m)) <= 96.
  Variables (dep K : nat).
  Hypothesis P0 : 0 < dep.
  Hypothesis SD : vrf_spread dep vk (names_of ops).
  Hypothesis KS : keys_up_to K ops.
  Hypothesis SM : 130 * dep + 3 * K <= 6900.

  Lemma reg_short n v : reg ops n = Some v -> length v <= K.
  Proof. intro H. destruct (reg_requested _ _ _ H) as (r & I). exact (KS _ _ _ I). Qed.
  Lemma shows_short name ap v h : shows (vrf_pub vk) name ap v h -> match v with Some k => length k <= K | None => True end ->
    forall leaf w, ap_leaf ap = Some leaf -> pn_value leaf = Some w -> length w <= K.
  Proof.
    intros (_ & _ & leaf & AL & PV & _) L leaf' w AL' PW. rewrite AL in AL'. injection AL' as <-. rewrite PV in PW. rewrite PW in L. exact L.
  Qed.
  Lemma within e ap tb s : (forall leaf w, ap_leaf ap = Some leaf -> pn_value leaf = Some w -> length w <= K) ->
    match tb with Some t => length (tb_value t) <= K | None => True end ->
    keys_within K (mkResp e (Some (DProof (Some (mkDP [Some ap] [Some s] tb))))).
  Proof.
    intros A T. cbn [keys_within r_df dp_ap dp_tb]. split.
    - intros ap' leaf v [E|[]]. injection E as <-. apply A.
    - intros t ->. exact T.
  Qed.
  Lemma register_fits r name key d' resp : vrf_good vk (name :: names_of ops) -> utf8 name -> length key <= K ->
    Register d r name key = Ok (d', resp) -> length (response_text resp) <= 8192.
  Proof.
    intros VG U LK R.
    assert (W : wf_body (WRegistration name key false false)) by exact U.
    apply (usual_answers_fit C OK _ _ _ _ _ _ _ _ B F D VL r (WRegistration name key false false) d' resp W (or_introl eq_refl) R dep K); [| |exact SM].
    - apply path_len_depth. intros ap I. exact (C94_path_depth C OK _ _ _ _ _ _ _ _ B F dep P0 SD r (WRegistration name key false false) d' resp ap R I).
    - destruct (C24_register C OK dl0 vk sk size r1 r2 ops d r name key B F VG) as (d2 & resp2 & E & X).
      rewrite R in E. injection E as <- <-. destruct (is_nil name || is_nil key).
      { destruct X as (_ & ->). exact I. }
      destruct X as (X0 & X1 & X2 & X3). destruct (reg ops name) as [k|] eqn:RG.
      + pose proof (reg_short _ _ RG) as SH. destruct (visible ops name) as [k'|] eqn:V.
        * destruct (X3 k' eq_refl) as (_ & ap & -> & _ & S). apply within; [|exact I].
          apply (shows_short _ _ _ _ S). rewrite (visible_reg _ _ _ V) in RG. injection RG as ->. exact SH.
        * destruct (X2 k eq_refl eq_refl) as (_ & ap & tb & -> & _ & S & _ & TV & _). apply within; [|rewrite TV; exact SH].
          apply (shows_short _ _ _ _ S). exact I.
      + destruct r as [r|].
        * destruct (X1 eq_refl ltac:(discriminate)) as (ap & tb & -> & _ & S & _ & TV & _). apply within; [|rewrite TV; exact LK].
          apply (shows_short _ _ _ _ S). exact I.
        * destruct (X0 eq_refl eq_refl) as (_ & ->). exact I.
  Qed.
  Lemma lookup_fits name resp : vrf_good vk (name :: names_of ops) -> utf8 name -> name <> [] ->
    KeyLookup d name = Ok resp -> length (response_text resp) <= 8192.
  Proof.
    intros VG U NN R.
    assert (W : wf_body (WKeyLookup name)) by exact U.
    assert (A : directory_answer d None (WKeyLookup name) = Ok (d, resp)) by (cbn [directory_answer]; rewrite R; reflexivity).
    apply (usual_answers_fit C OK _ _ _ _ _ _ _ _ B F D VL None (WKeyLookup name) d resp W (or_intror eq_refl) A dep K); [| |exact SM].
    - apply path_len_depth. intros ap I. exact (C94_path_depth C OK _ _ _ _ _ _ _ _ B F dep P0 SD None (WKeyLookup name) d resp ap A I).
    - destruct (C24_key_lookup C OK dl0 vk sk size r1 r2 ops d name B F VG NN) as (ap & _ & S & X).
      destruct (visible ops name) as [k|] eqn:V.
      + rewrite R in X. injection X as ->. apply within; [|exact I]. apply (shows_short _ _ _ _ S), (reg_short name), visible_reg, V.
      + destruct (reg ops name) as [k|] eqn:RG.
        * destruct X as (tb & X & _ & TV & _). rewrite R in X. injection X as ->.
          apply within; [apply (shows_short _ _ _ _ S); exact I|rewrite TV; exact (reg_short _ _ RG)].
        * rewrite R in X. injection X as ->. apply within; [apply (shows_short _ _ _ _ S); exact I|exact I].
  Qed.
End Fit.

(** The answers of a directory to registrations and lookups fit if the names' indices
    are spread within [dep] bits and all keys have at most [K] bytes, for instance
    32 bits and 900 bytes. *)
Theorem C94_answers_fit : forall (C : Crypto), CryptoOk C ->
  forall dl0 vk sk size r1 r2 ops d, dir_built dl0 vk sk size r1 r2 ops d -> few ops -> deadlines_ok dl0 ops ->
  (forall m, length (snd (vrf_prove vk m)) <= 96) ->
  forall dep K, 0 < dep -> vrf_spread dep vk (names_of ops) -> keys_up_to K ops -> 130 * dep + 3 * K <= 6900 ->
  forall name, utf8 name -> vrf_good vk (name :: names_of ops) ->
  (forall r key d' resp, length key <= K -> Register d r name key = Ok (d', resp) -> length (response_text resp) <= 8192) /\
  (forall resp, name <> [] -> KeyLookup d name = Ok resp -> length (response_text resp) <= 8192).
Proof.
  intros C OK dl0 vk sk size r1 r2 ops d B F D VL dep K P S KS SM name U VG. split.
  - intros r key d' resp LK. exact (register_fits OK _ _ _ _ _ _ _ _ B F D VL dep K P S KS SM r name key d' resp VG U LK).
  - intros resp NN. exact (lookup_fits OK _ _ _ _ _ _ _ _ B F D VL dep K P S KS SM name resp VG U NN).
Qed.
Print Assumptions C94_answers_fit.

(** ** Sessions *)

(** Every user's keys have at most [K] bytes, this user's names at most 800.
    No line of its own in /repo: a condition on the sessions quantified over. *)
Definition command_sizes (c : command) : Prop :=
  match c with KRegister _ name _ | KLookup name => length name <= 800 | KOther _ => True end.

Section Session.
  Context {C : Crypto} (OK : CryptoOk C).
  Variables (dl0 : N) (vk sk : bytes) (size : nat) (r1 r2 : option bytes).
  Variables (p : permtable) (at_addr : bytes -> nat) (conf : ClientLoaded).
  Hypothesis PR : p (at_addr (reg_address conf)) RegistrationType = true.
  Hypothesis PL : p (at_addr (cl_addr conf)) KeyLookupType = true.
  Hypothesis VL : forall m, length (snd (vrf_prove vk m)) <= 96.
  Variables (dep K : nat).
  Hypothesis P0 : 0 < dep.
  Hypothesis SM : 130 * dep + 3 * K <= 6900.
  Notation jinv := (joint_inv dl0 vk sk size r1 r2).

  Lemma K_small : K <= 2300.
  Proof. rewrite n6900 in SM. replace 2300 with (23 * 100) by (vm_compute; reflexivity). lia. Qed.
  Lemma step_texts_fit h d c : dir_built dl0 vk sk size r1 r2 h d -> few h -> deadlines_ok dl0 h ->
    vrf_good vk (looked_up c ++ names_of (h ++ calls1 p c)) -> vrf_spread dep vk (names_of h) -> keys_up_to K (h ++ calls1 p c) ->
    wf_command c -> command_sizes c -> Forall (fun t => length t <= 8192) (step_texts p at_addr conf d c).
  Proof.
    intros B F D VG S KS W Z. pose proof K_small as K23.
    assert (KH : keys_up_to K h) by (intros r n k I; apply (KS r n k), in_or_app; left; exact I).
    destruct c as [op|r name key|name]; cbn [step_texts calls1 looked_up wf_command command_sizes] in *; [constructor| |].
    - destruct W as (U & NN & NY).
      assert (LK : length key <= K) by (apply (KS (Some r) name key), in_or_app; right; left; reflexivity).
      constructor; [apply (proj1 (C94_requests_fit name key U Z (Nat.le_trans _ _ _ LK K23)))|].
      rewrite (register_arrives p _ PR) by exact U.
      destruct (Register d (Some r) name key) as [[d1 resp]|] eqn:R; cbn [bind]; [|constructor].
      constructor; [|constructor].
      refine (register_fits OK _ _ _ _ _ _ _ _ B F D VL dep K P0 S KH SM (Some r) name key d1 resp _ U LK R).
      apply (vrf_good_incl vk _ _) with (2 := VG). intros a Ia. cbn [app]. rewrite names_app, in_app_iff. cbn [names_of flat_map op_names app In] in *. tauto.
    - destruct W as (U & NN).
      constructor; [apply (proj2 (C94_requests_fit name [] U Z ltac:(cbn [List.length]; apply Nat.le_0_l)))|].
      rewrite (lookup_arrives p _ PL) by exact U. rewrite app_nil_r in *.
      destruct (KeyLookup d name) as [resp|] eqn:R; cbn [bind]; [|constructor].
      constructor; [|constructor].
      exact (lookup_fits OK _ _ _ _ _ _ _ _ B F D VL dep K P0 S KH SM name resp VG U NN R).
  Qed.
  Lemma texts_fit : forall l h d cc lag, jinv h d cc lag -> no_keys cc ->
    few (h ++ calls p l) -> vrf_good vk (flat_map looked_up l ++ names_of (h ++ calls p l)) -> deadlines_ok dl0 (h ++ calls p l) ->
    vrf_spread dep vk (names_of (h ++ calls p l)) -> keys_up_to K (h ++ calls p l) ->
    Forall wf_command l -> Forall command_sizes l -> no_missed_epoch lag l ->
    Forall (fun t => length t <= 8192) (texts p at_addr conf d cc l).
  Proof.
    induction l as [|c l IH]; intros h d cc lag JI NK F SP DL S KS W Z PM; [constructor|].
    cbn [calls flat_map] in *. fold (calls p l) in *. rewrite app_assoc in *. inversion W as [|? ? W1 W2]; subst. inversion Z as [|? ? Z1 Z2]; subst.
    assert (F1 : few (h ++ calls1 p c)) by (unfold few in *; rewrite dupdates_app in F; lia).
    assert (F0 : few h) by (unfold few in *; rewrite dupdates_app in F1; lia).
    assert (VG1 : vrf_good vk (looked_up c ++ names_of (h ++ calls1 p c))).
    { apply (vrf_good_incl vk _ _) with (2 := SP). intros a Ia. rewrite !names_app in *. rewrite !in_app_iff in *. tauto. }
    assert (D0 : deadlines_ok dl0 h).
    { destruct DL as (D1 & D2). split; auto. intros t I. apply D2. rewrite !in_app_iff. tauto. }
    assert (PM1 : no_missed_epoch lag [c]) by (destruct c as [[a m r| |dl]|r n k|n]; cbn [no_missed_epoch] in *; tauto).
    destruct (command_step_inv OK dl0 vk sk size r1 r2 p _ _ PR PL h d cc lag c JI NK F1 VG1 D0 W1 PM1) as (d1 & cc1 & E & N1 & J1).
    cbn [texts]. apply Forall_app. split.
    - apply (step_texts_fit h); auto; [exact (ji_built _ _ _ _ _ _ _ _ _ _ JI)| |].
      + intros a b Ia Ib. apply S; rewrite !names_app, !in_app_iff; tauto.
      + intros r n k I. apply (KS r n k). apply in_or_app. left. exact I.
    - rewrite E. apply (IH (h ++ calls1 p c) d1 cc1 _ J1 N1); auto.
      + apply (vrf_good_incl vk _ _) with (2 := SP). intros a Ia. rewrite !in_app_iff in *. tauto.
      + destruct c as [[a m r| |dl]|r n k|n]; cbn [no_missed_epoch] in *; tauto.
  Qed.
End Session.

(** C84 without the hypothesis about the texts: with an honest server the screen
    shows what happened to the names, whatever the other users do, if the indices of
    all names are spread within [dep] bits, keys have at most [K] bytes and this
    user's names at most 800. *)
Theorem C94_screen : forall (C : Crypto), CryptoOk C ->
  forall host p at_addr conf debug dl0 vk sk size r1 r2 d0 st0 cmds evs,
  Directory_New dl0 vk sk size true r1 r2 = Ok d0 ->
  cl_str conf = LatestSTR d0 -> cl_key conf = sign_pub sk -> repl_start conf debug = Ok st0 ->
  usable host (cl_addr conf) = Ok true -> usable host (reg_address conf) = Ok true ->
  p (at_addr (reg_address conf)) RegistrationType = true -> p (at_addr (cl_addr conf)) KeyLookupType = true ->
  Forall2 spelled cmds evs ->
  no_missed_epoch 0 cmds -> Forall wf_command cmds -> few (calls p cmds) -> deadlines_ok dl0 (calls p cmds) ->
  vrf_good vk (flat_map looked_up cmds ++ names_of (calls p cmds)) ->
  (forall m, length (snd (vrf_prove vk m)) <= 96) ->
  forall dep K, 0 < dep -> 130 * dep + 3 * K <= 6900 ->
  vrf_spread dep vk (names_of (calls p cmds)) -> keys_up_to K (calls p cmds) -> Forall command_sizes cmds ->
  exists d st, session host p at_addr conf d0 st0 evs =
    Ok (d, st, map (fun s => (debug, key "[+] " ++ message [] s)) (expected p [] cmds)).
Proof.
  intros C OK host p at_addr conf debug dl0 vk sk size r1 r2 d0 st0 cmds evs N0 CS CK ST UA UR PR PL SP PM W F DL VS VL dep K P SM SD KS Z.
  apply (C84_honest_server C OK host p at_addr conf debug dl0 vk sk size r1 r2 d0 st0 cmds evs N0 CS CK ST UA UR PR PL SP PM W F DL VS).
  unfold repl_start in ST. destruct (Client_New (cl_str conf) true (cl_key conf)) as [cc0|] eqn:CN; cbn [bind] in ST; [|discriminate ST].
  injection ST as <-. rewrite CS, CK in CN. cbn [rp_cc].
  apply (texts_fit OK dl0 vk sk size r1 r2 p at_addr conf PR PL VL dep K P SM cmds [] d0 cc0 0); auto.
  - unfold Client_New in CN. injection CN as <-. constructor; cbn; auto.
    + exists d0. auto.
    + intros n tb X. discriminate X.
  - unfold Client_New in CN. injection CN as <-. intro n. reflexivity.
Qed.
Print Assumptions C94_screen.

Local Ltac names := apply name_ok_is; reflexivity.
(** From the files of an installation to the screen (C86), in the same way. *)
Theorem C94_install_to_screen : forall (C : Crypto), CryptoOk C -> (forall sk, length (sign_pub sk) = 32) ->
  (forall vk m, length (snd (vrf_prove vk m)) <= 96) ->
  forall T net cwd d file r1 r2 d' p, run_server T Fine net cwd d file r1 r2 = (d', Serving p) ->
  forall text doc pol lg sk vk,
  content d (locate cwd file) = Some text -> server_parse T text = Some doc ->
  sd_pol doc = Some pol -> sd_logger doc = Some lg -> (po_deadline pol < 2 ^ 64)%N ->
  content d (beside cwd file (po_sign pol)) = Some sk -> content d (beside cwd file (po_vrf pol)) = Some vk ->
  d (str_place cwd file doc) = None -> d (tl (str_place cwd file doc)) = Some Folder ->
  str_place cwd file doc <> beside cwd file (lg_path lg) ->
  forall host at_addr d2 cwdc filec enc cdoc debug,
  d2 (str_place cwd file doc) = d' (str_place cwd file doc) ->
  client_of T d2 cwdc filec cdoc (sign_pub sk) (str_place cwd file doc) ->
  usable host (cd_addr cdoc) = Ok true -> usable host (reg_of cdoc) = Ok true ->
  takes_registrations doc (at_addr (reg_of cdoc)) -> takes_lookups doc (at_addr (cd_addr cdoc)) ->
  let perms := sv_perms (pr_server p) in
  exists conf st0, ClientLoad T cwdc d2 filec enc = Ok (Some conf) /\ repl_start conf debug = Ok st0 /\
  forall cmds evs, Forall2 spelled cmds evs ->
    no_missed_epoch 0 cmds -> Forall wf_command cmds -> few (calls perms cmds) -> deadlines_ok (po_deadline pol) (calls perms cmds) ->
    vrf_good vk (flat_map looked_up cmds ++ names_of (calls perms cmds)) ->
    forall dep K, 0 < dep -> 130 * dep + 3 * K <= 6900 ->
    vrf_spread dep vk (names_of (calls perms cmds)) -> keys_up_to K (calls perms cmds) -> Forall command_sizes cmds ->
    exists dn st, session host perms at_addr conf (sv_dir (pr_server p)) st0 evs =
      Ok (dn, st, map (fun s => (debug, key "[+] " ++ message [] s)) (expected perms [] cmds)).
Proof.
  intros C OK PL VL T net cwd d file r1 r2 d' p R text doc pol lg sk vk A1 A2 A3 A4 LT A5 A6 N F NE host at_addr d2 cwdc filec enc cdoc debug SD CO UA UR TR TL perms.
  destruct (C86_serving C T net cwd d file r1 r2 d' p R) as (text' & doc' & pol' & lg' & sk' & vk' & B1 & B2 & B3 & B4 & B5 & B6 & ND & PR & _ & PK & WR).
  rewrite A1 in B1. injection B1 as <-. rewrite A2 in B2. injection B2 as <-. rewrite A3 in B3. injection B3 as <-.
  rewrite A4 in B4. injection B4 as <-. rewrite A5 in B5. injection B5 as <-. rewrite A6 in B6. injection B6 as <-.
  specialize (WR N F NE).
  set (d0 := sv_dir (pr_server p)) in *. clearbody d0.
  destruct (load_str_text C OK (po_deadline pol) vk sk _ r1 r2 d0 LT ND) as (PJ & LJ).
  destruct (client_loads C T d2 cwdc filec enc cdoc (sign_pub sk) (str_place cwd file doc) (str_text d0) (LatestSTR d0) CO (PL sk)) as (conf & CL & K & S1 & RG & AD).
  { unfold content. rewrite SD, WR. reflexivity. }
  { exists (enc_dirstr (LatestSTR d0)). split; assumption. }
  pose proof (reg_address_of conf cdoc RG AD) as RA.
  destruct (repl_start conf debug) as [st0|] eqn:ST.
  2:{ unfold repl_start in ST. destruct (Client_New (cl_str conf) true (cl_key conf)) as [cc0|] eqn:CN; [discriminate ST|discriminate CN]. }
  exists conf, st0. split; [exact CL|]. split; [exact ST|].
  intros cmds evs SP NM W FW DL VS dep K0 P0 SM SD0 KS Z.
  apply (C94_screen C OK host perms at_addr conf debug (po_deadline pol) vk sk (N.to_nat (sd_hist doc)) r1 r2 d0 st0 cmds evs ND S1 K ST)
    with (dep := dep) (K := K0); try assumption.
  - rewrite AD. exact UA.
  - rewrite RA. exact UR.
  - rewrite RA. apply PR. exact TR.
  - rewrite AD. apply PK. exact TL.
  - exact (VL vk).
Qed.
Print Assumptions C94_install_to_screen.
(** The server of [coniksserver init] *)
Theorem C94_default_server : forall (C : Crypto), CryptoOk C -> (forall sk, length (sign_pub sk) = 32) ->
  (forall vk m, length (snd (vrf_prove vk m)) <= 96) ->
  forall T, TomlOk T -> forall a sk vk d cwd file net r1 r2 d0,
  deployed T a sk vk d -> length sk = 64 -> length vk = 64 -> utf8 (Join (in_dir a) (key "config.toml")) ->
  locate cwd file = key "config.toml" :: home a -> locate_dir cwd file = home a -> locate cwd (in_dir a) = home a ->
  d (log_name :: home a) <> Some Folder -> d (str_name :: home a) = None -> tls_files d (home a) ->
  net (key "unix:///tmp/coniks.sock") = true -> net (key "tcp://0.0.0.0:3000") = true ->
  Directory_New 60 vk sk (N.to_nat 1000000) true r1 r2 = Ok d0 ->
  exists d' p, run_server T Fine net cwd d file r1 r2 = (d', Serving p) /\ sv_dir (pr_server p) = d0 /\
  sv_perms (pr_server p) 0 RegistrationType = true /\ sv_perms (pr_server p) 1 RegistrationType = false /\
  forall host at_addr d2 cwdc filec enc cdoc debug,
  d2 (str_name :: home a) = d' (str_name :: home a) ->
  client_of T d2 cwdc filec cdoc (sign_pub sk) (str_name :: home a) ->
  usable host (cd_addr cdoc) = Ok true -> usable host (reg_of cdoc) = Ok true ->
  at_addr (reg_of cdoc) = 0 -> at_addr (cd_addr cdoc) <= 1 ->
  let perms := sv_perms (pr_server p) in
  exists conf st0, ClientLoad T cwdc d2 filec enc = Ok (Some conf) /\ repl_start conf debug = Ok st0 /\
  forall cmds evs, Forall2 spelled cmds evs ->
    no_missed_epoch 0 cmds -> Forall wf_command cmds -> few (calls perms cmds) -> deadlines_ok 60 (calls perms cmds) ->
    vrf_good vk (flat_map looked_up cmds ++ names_of (calls perms cmds)) ->
    forall dep K, 0 < dep -> 130 * dep + 3 * K <= 6900 ->
    vrf_spread dep vk (names_of (calls perms cmds)) -> keys_up_to K (calls perms cmds) -> Forall command_sizes cmds ->
    exists dn st, session host perms at_addr conf d0 st0 evs =
      Ok (dn, st, map (fun s => (debug, key "[+] " ++ message [] s)) (expected perms [] cmds)).
Proof.
  intros C OK PL VL T TO a sk vk d cwd file net r1 r2 d0 DE LS LV U L LD SAME LG ES TL N1 N2 ND.
  destruct (C71_start C T TO a sk vk d cwd file net r1 r2 d0 DE LS LV U L LD LG N1 N2 ND) as (d' & p & R & _ & SV & _ & _ & S1 & _ & S3).
  specialize (R TL). exists d', p. split; [exact R|]. split; [exact SV|].
  destruct DE as (D0 & D1 & D2 & D3 & D4).
  pose (cfile := Join (in_dir a) (key "config.toml")).
  assert (PA : server_parse T (server_text T (default_doc cfile)) = Some (default_doc cfile)) by (apply TO, default_plain, U).
  assert (CT : content d (locate cwd file) = Some (server_text T (default_doc cfile))) by (unfold content; rewrite L, D1; reflexivity).
  destruct (C86_serving C T net cwd d file r1 r2 d' p R) as (text' & doc' & pol' & lg' & sk' & vk' & B1 & B2 & B3 & B4 & B5 & B6 & ND' & PR & PN & PK & WR).
  rewrite CT in B1. injection B1 as <-. rewrite PA in B2. injection B2 as <-.
  split; [apply PR; eexists; split; [reflexivity|reflexivity]|].
  split; [eapply PN; [reflexivity|reflexivity]|].
  clear sk' vk' B5 B6 ND' WR PR PN PK B3 B4 pol' lg'.
  assert (SP : str_place cwd file (default_doc cfile) = str_name :: home a).
  { unfold str_place. cbn [default_doc sd_path sd_str]. change (key "init.str") with str_name. rewrite beside_name by names.
    unfold cfile. rewrite (proj2 (locate_Join cwd (in_dir a) (key "config.toml") ltac:(names))), SAME. reflexivity. }
  intros host at_addr d2 cwdc filec enc cdoc debug SD CO UA UR AR AA perms.
  assert (KEYS : content d (beside cwd file (key "sign.priv")) = Some sk /\ content d (beside cwd file (key "vrf.priv")) = Some vk).
  { rewrite !beside_name by names. rewrite LD. unfold content. rewrite D2, D4. split; reflexivity. }
  destruct (C94_install_to_screen C OK PL VL T net cwd d file r1 r2 d' p R (server_text T (default_doc cfile)) (default_doc cfile)
    (mkPol 60 (key "vrf.priv") (key "sign.priv")) (mkLogger true (key "development") (key "coniksserver.log")) sk vk CT PA eq_refl eq_refl eq_refl (proj1 KEYS) (proj2 KEYS))
    with (host := host) (at_addr := at_addr) (d2 := d2) (cwdc := cwdc) (filec := filec) (enc := enc) (cdoc := cdoc) (debug := debug)
    as (conf & st0 & CL & ST & G).
  - rewrite SP. exact ES.
  - rewrite SP. exact D0.
  - rewrite SP. cbn [lg_path]. change (key "coniksserver.log") with log_name. rewrite beside_name by names. discriminate.
  - rewrite SP. exact SD.
  - rewrite SP. exact CO.
  - exact UA.
  - exact UR.
  - rewrite AR. eexists. split; reflexivity.
  - unfold takes_lookups. destruct (at_addr (cd_addr cdoc)) as [|[|n]]; [discriminate|discriminate|lia].
  - exists conf, st0. split; [exact CL|]. split; [exact ST|]. cbv zeta in G. cbn [po_deadline] in G.
    fold perms in G. rewrite SV in G. exact G.
Qed.
Print Assumptions C94_default_server.

(** ** The hypotheses are met *)
(** Two names, other users' requests and epochs in between, VRF proofs of 96 bytes:
    the commands of C57's example meet the hypotheses of [C94_screen] with paths of
    32 hashes and keys of 900 bytes. *)
Example C94_case :
  perms_ex 0 RegistrationType = true /\ perms_ex 1 KeyLookupType = true /\
  no_missed_epoch 0 commands_ex /\ Forall wf_command commands_ex /\ few (calls perms_ex commands_ex) /\
  deadlines_ok 5 (calls perms_ex commands_ex) /\
  @vrf_good FixedCrypto [x11] (flat_map looked_up commands_ex ++ names_of (calls perms_ex commands_ex)) /\
  (forall m, length (snd (@vrf_prove FixedCrypto [x11] m)) <= 96) /\
  0 < 32 /\ 130 * 32 + 3 * 900 <= 6900 /\
  @vrf_spread FixedCrypto 32 [x11] (names_of (calls perms_ex commands_ex)) /\
  keys_up_to 900 (calls perms_ex commands_ex) /\ Forall command_sizes commands_ex /\
  expected perms_ex [] commands_ex =
    [SNotRegistered; SRegistered [x61]; SAlreadyRegistered; SKeyChange; SFound []; SFound []; SRegistered [x62]].
Proof.
  destruct C57_nonvacuous as (A1 & A2 & A3 & A4 & A5 & A6 & _ & A8).
  repeat (split; [assumption|]).
  assert (SPR : @vrf_spread FixedCrypto 32 [x11] (flat_map looked_up commands_ex ++ names_of (calls perms_ex commands_ex))).
  { set (L := flat_map looked_up commands_ex ++ names_of (calls perms_ex commands_ex)).
    assert (A : forallb (fun a => forallb (fun b => if list_eq_dec Bool.bool_dec (firstn 32 (ToBits (@idx_of FixedCrypto [x11] a)))
        (firstn 32 (ToBits (@idx_of FixedCrypto [x11] b))) then beq a b else true) L) L = true) by (vm_compute; reflexivity).
    intros a b Ia Ib E. rewrite forallb_forall in A. specialize (A a Ia). cbv beta in A. rewrite forallb_forall in A. specialize (A b Ib).
    cbv beta in A. destruct (list_eq_dec _ _ _); [|contradiction]. apply beq_eq. exact A. }
  split; [split; [apply (vrf_spread_le [x11] 32); [apply Nat.leb_le; reflexivity|exact SPR]|]|].
  { intros k _. apply beq_eq. reflexivity. }
  split; [intro m; apply le_n|]. split; [lia|]. split; [apply Nat.leb_le; vm_compute; reflexivity|].
  split; [intros a b Ia Ib; apply SPR; apply in_or_app; right; assumption|].
  split. { intros r n k I. cbn in I. repeat (destruct I as [I|I]; [try discriminate I; injection I as <- <- <-; cbn [List.length]; lia|]). destruct I. }
  split; [|exact A8]. repeat (apply Forall_cons; [first [exact I|cbn [command_sizes List.length]; lia]|]). constructor.
Qed.
