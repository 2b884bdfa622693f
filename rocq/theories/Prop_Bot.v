(** C45: the registration proxy. *)
From Coq Require Import List NArith ZArith Lia Bool Arith.
From Verif Require Import Base Utils Crypto Tree STR PAD Protocol Directory DirSpec DirFacts Json JsonText Wire Text Conc Server Bot Prop_Server.
Import ListNotations.

(** ** Specification *)

(** ASCII text. *)
Definition ascii (s : bytes) : Prop := forall c, In c s -> (Byte.to_N c < 128)%N.
(** [t] is the ASCII text [s] up to simple Unicode case folding. *)
Inductive folds : bytes -> bytes -> Prop :=
| f_nil : folds [] []
| f_letter c b s t : lower c = lower b -> folds s t -> folds (c :: s) (b :: t)
| f_kelvin c s t : lower c = x6b -> folds s t -> folds (c :: s) (xe2 :: x84 :: xaa :: t)   (* U+212A, k *)
| f_long_s c s t : lower c = x73 -> folds s t -> folds (c :: s) (xc5 :: xbf :: t).         (* U+017F, s *)
(** The name [n] is one that the account [sender] may register. *)
Definition names_account (n sender : bytes) : Prop := folds (map lower sender ++ suffix) n.

Lemma beqb_true a b : byte_eqb a b = true -> a = b.
Proof. apply byte_eqb_eq. Qed.
Lemma beqb_refl a : byte_eqb a a = true.
Proof. apply byte_eqb_eq. reflexivity. Qed.

Lemma EqualFold_spec s t : EqualFold s t = true <-> folds s t.
Proof.
  split.
  - revert t. induction s as [|c s IH]; intros [|b t] H; cbn [EqualFold] in H; try discriminate H; [constructor|].
    destruct (byte_eqb (lower c) (lower b)) eqn:E; [apply f_letter; [apply beqb_true; auto|auto]|].
    destruct (byte_eqb (lower c) x6b && byte_eqb b xe2) eqn:K.
    { apply andb_true_iff in K as [K1 K2]. apply beqb_true in K1, K2. subst b.
      destruct t as [|b1 [|b2 t]]; try discriminate H. rewrite !andb_true_iff in H. destruct H as [[H1 H2] H3].
      apply beqb_true in H1, H2. subst. apply f_kelvin; auto. }
    destruct (byte_eqb (lower c) x73 && byte_eqb b xc5) eqn:L; [|discriminate H].
    apply andb_true_iff in L as [L1 L2]. apply beqb_true in L1, L2. subst b.
    destruct t as [|b1 t]; try discriminate H. rewrite !andb_true_iff in H. destruct H as [H1 H2].
    apply beqb_true in H1. subst. apply f_long_s; auto.
  - induction 1 as [|c b s t E F IH|c s t E F IH|c s t E F IH]; cbn [EqualFold]; [reflexivity| | |].
    + rewrite E, beqb_refl. exact IH.
    + rewrite E. change (byte_eqb x6b (lower xe2)) with false. cbn iota.
      change (byte_eqb x6b x6b && byte_eqb xe2 xe2) with true. cbn iota. rewrite IH. reflexivity.
    + rewrite E. change (byte_eqb x73 (lower xc5)) with false. cbn iota.
      change (byte_eqb x73 x6b && byte_eqb xc5 xe2) with false. cbn iota.
      change (byte_eqb x73 x73 && byte_eqb xc5 xc5) with true. cbn iota. rewrite IH. reflexivity.
Qed.

(** ** C45 *)

(** The proxy contacts the server exactly when the message is a registration
    request for a name of the sender's; it then passes on the very bytes it
    received, once, and returns the server's answer. *)
Theorem C45_forwards_exactly_own_names : forall server sender msg,
  (exists q n k u p, obind (json_parse msg) UnmarshalRequest = Some q /\ q_type q = RegistrationType /\
     q_body q = WRegistration n k u p /\ names_account n sender /\
     HandleRegistration server sender msg =
       (match server msg with Some res => res | None => json_text (MarshalResponse (NewErrorResponse ErrDirectory)) end, [msg])) \/
  ((forall q n k u p, obind (json_parse msg) UnmarshalRequest = Some q -> q_type q = RegistrationType ->
     q_body q = WRegistration n k u p -> ~ names_account n sender) /\
   HandleRegistration server sender msg = (json_text (MarshalResponse (NewErrorResponse ErrMalformedMessage)), [])).
Proof.
  intros server sender msg. unfold HandleRegistration.
  destruct (request_ok sender msg) eqn:R; unfold request_ok in R.
  - left. destruct (obind (json_parse msg) UnmarshalRequest) as [q|] eqn:Q; [|discriminate R].
    destruct (q_body q) as [n k u p| | | | | |] eqn:B; try discriminate R.
    apply andb_true_iff in R as [T E]. apply Z.eqb_eq in T. apply EqualFold_spec in E.
    exists q, n, k, u, p. repeat (split; [solve [auto]|]). destruct (server msg); reflexivity.
  - right. split; [|reflexivity]. intros q n k u p Q T B N. rewrite Q, B, T in R.
    change (Z.eqb RegistrationType RegistrationType) with true in R. cbn [andb] in R.
    apply EqualFold_spec in N. unfold to_lower in R. congruence.
Qed.
Print Assumptions C45_forwards_exactly_own_names.

(** No name belongs to two accounts: screen names are ASCII and distinct up to
    case. *)
Lemma lower_ascii c : (Byte.to_N (lower c) < 128)%N <-> (Byte.to_N c < 128)%N.
Proof. destruct c; vm_compute; tauto. Qed.
Lemma lower_idem c : lower (lower c) = lower c.
Proof. destruct c; reflexivity. Qed.
Lemma ascii_cons c s : ascii (c :: s) -> (Byte.to_N c < 128)%N /\ ascii s.
Proof. intro H. split; [apply H; left; auto|intros x Hx; apply H; right; auto]. Qed.
Lemma folds_inj a b t : ascii a -> ascii b -> folds a t -> folds b t -> map lower a = map lower b.
Proof.
  intros A B H. revert b B. induction H as [|c x s t E F IH|c s t E F IH|c s t E F IH]; intros b B K.
  - inversion K. reflexivity.
  - apply ascii_cons in A as [A1 A2]. inversion K; subst; apply ascii_cons in B as [B1 B2]; cbn [map].
    + f_equal; [congruence|auto].
    + exfalso. apply lower_ascii in A1. rewrite E in A1. vm_compute in A1. discriminate A1.
    + exfalso. apply lower_ascii in A1. rewrite E in A1. vm_compute in A1. discriminate A1.
  - apply ascii_cons in A as [A1 A2]. inversion K; subst; apply ascii_cons in B as [B1 B2]; cbn [map].
    + exfalso. apply lower_ascii in B1. match goal with H : lower _ = lower xe2 |- _ => rewrite H in B1 end. vm_compute in B1. discriminate B1.
    + f_equal; [congruence|auto].
  - apply ascii_cons in A as [A1 A2]. inversion K; subst; apply ascii_cons in B as [B1 B2]; cbn [map].
    + exfalso. apply lower_ascii in B1. match goal with H : lower _ = lower xc5 |- _ => rewrite H in B1 end. vm_compute in B1. discriminate B1.
    + f_equal; [congruence|auto].
Qed.
Lemma ascii_account s : ascii s -> ascii (map lower s ++ suffix).
Proof.
  intros H c I. apply in_app_or in I as [I|I].
  - apply in_map_iff in I as (x & <- & I). apply lower_ascii. auto.
  - cbn in I. repeat (destruct I as [<-|I]; [reflexivity|]). destruct I.
Qed.
Theorem C45_no_name_of_two_accounts : forall n sender1 sender2, ascii sender1 -> ascii sender2 ->
  names_account n sender1 -> names_account n sender2 -> map lower sender1 = map lower sender2.
Proof.
  intros n s1 s2 A1 A2 H1 H2. pose proof (folds_inj _ _ _ (ascii_account _ A1) (ascii_account _ A2) H1 H2) as E.
  rewrite !map_app, !map_map in E. apply app_inv_tail in E.
  assert (L : forall s, map (fun x => lower (lower x)) s = map lower s) by (intro s; apply map_ext; intro; apply lower_idem).
  rewrite !L in E. exact E.
Qed.
Print Assumptions C45_no_name_of_two_accounts.

(** ** The proxy in front of a server *)

(** A direct message: sender, text, and the entropy the server would draw. *)
Definition dm := (bytes * bytes * option bytes)%type.
(** One direct message handled; the proxy speaks on the address [addr], the
    only one through which registrations reach this directory. *)
Definition dm_step {C : Crypto} (handle : bytes) (p : permtable)
  (addr : nat) (d : Directory) (m : dm) : result Directory :=
  let '(sender, text, r) := m in
  let answer := fun msg => match srv_sem p (OMsg addr (received msg) r) d with
                           | Ok (_, Some resp) => Some (firstn limit (json_text (MarshalResponse resp))) | _ => None end in
  match snd (handle_dm answer handle sender text) with
  | [] => Ok d
  | msg :: _ => do (d', _) <- srv_sem p (OMsg addr (received msg) r) d; Ok d'
  end.
Fixpoint dm_run {C : Crypto} handle p addr (d : Directory) (l : list dm) : result Directory :=
  match l with
  | [] => Ok d
  | m :: l' => do d' <- dm_step handle p addr d m; dm_run handle p addr d' l'
  end.

(** Whatever direct messages arrive, the directory makes only registrations
    each of which was asked for, key and all, in a message from the account
    that the name belongs to. *)
Theorem C45_registered_names_authenticated : forall (C : Crypto) handle p addr dms d0 d,
  dm_run handle p addr d0 dms = Ok d ->
  exists ops, dir_run d0 ops = Ok d /\
  forall op, In op ops -> exists r n k, op = DRegister r n k /\
    exists sender text msg q u v, In (sender, text, r) dms /\ text = messagePrefix ++ msg /\
      obind (json_parse msg) UnmarshalRequest = Some q /\ q_body q = WRegistration n k u v /\ names_account n sender.
Proof.
  intros C handle p addr dms. induction dms as [|[[sender text] r] l IH]; intros d0 d H; cbn [dm_run] in H.
  - injection H as <-. exists []. split; [reflexivity|intros ? []].
  - destruct (dm_step handle p addr d0 (sender, text, r)) as [d1|] eqn:S; [|discriminate H]. cbn [bind] in H.
    destruct (IH _ _ H) as (ops & R & J).
    assert (K : exists ops1, dir_run d0 ops1 = Ok d1 /\
      forall op, In op ops1 -> exists n k, op = DRegister r n k /\
        exists msg q u v, text = messagePrefix ++ msg /\
          obind (json_parse msg) UnmarshalRequest = Some q /\ q_body q = WRegistration n k u v /\ names_account n sender).
    { unfold dm_step in S. unfold handle_dm in S.
      destruct (EqualFold sender handle). { cbn [snd] in S. injection S as <-. exists []. split; [reflexivity|intros ? []]. }
      destruct (strip_prefix messagePrefix text) as [msg|] eqn:SP.
      2:{ cbn [snd] in S. injection S as <-. exists []. split; [reflexivity|intros ? []]. }
      assert (T : text = messagePrefix ++ msg).
      { clear -SP. revert text SP. generalize messagePrefix as b. induction b as [|a b IHb]; intros text SP; cbn [strip_prefix] in SP.
        - injection SP as <-. reflexivity.
        - destruct text as [|c text]; [discriminate SP|]. destruct (byte_eqb a c) eqn:E; [|discriminate SP].
          apply beqb_true in E. subst. cbn [app]. f_equal. auto. }
      match type of S with context [HandleRegistration ?f sender msg] =>
        destruct (C45_forwards_exactly_own_names f sender msg) as [(q & n & k & u & v & Q & Ty & B & N & E)|[_ E]] end;
        rewrite E in S; cbn [snd] in S.
      2:{ injection S as <-. exists []. split; [reflexivity|intros ? []]. }
      destruct (srv_sem p (OMsg addr (received msg) r) d0) as [[d' resp]|] eqn:SS; cbn [bind] in S; [|discriminate S].
      injection S as <-. exists (dir_calls p (OMsg addr (received msg) r)). split; [eapply sem_calls; eauto|].
      intros op I. cbn [dir_calls] in I. unfold accept in I.
      destruct (obind (received msg) UnmarshalRequest) as [q'|] eqn:Q'; [|destruct I].
      assert (q' = q) as -> by (eapply received_same; eauto).
      destruct (checkRequestType p addr (q_type q)); [|destruct I]. rewrite Ty in I.
      change (Z.eqb RegistrationType RegistrationType) with true in I. cbn iota in I. rewrite B in I.
      destruct I as [<-|[]]. exists n, k. split; [reflexivity|]. exists msg, q, u, v. auto. }
    destruct K as (ops1 & R1 & J1). exists (ops1 ++ ops). split.
    + rewrite dir_run_app, R1. exact R.
    + intros op I. apply in_app_or in I as [I|I].
      * destruct (J1 op I) as (n & k & -> & msg & q & u & v & T & Q & B & N). exists r, n, k. split; [reflexivity|].
        exists sender, text, msg, q, u, v. split; [left; reflexivity|]. auto.
      * destruct (J op I) as (r' & n & k & -> & s & t & msg & q & u & v & I' & X). exists r', n, k. split; [reflexivity|].
        exists s, t, msg, q, u, v. split; [right; exact I'|exact X].
Qed.
Print Assumptions C45_registered_names_authenticated.

(** The proxy answers each message at most once, to its sender only; messages
    without the prefix, and its own, it ignores. *)
Theorem C45_replies_to_sender_only : forall server handle sender text replies sent,
  handle_dm server handle sender text = (replies, sent) ->
  length replies <= 1 /\ (forall to t, In (to, t) replies -> to = sender) /\
  (sent <> [] -> replies <> []) /\
  (forall t, text = messagePrefix ++ t -> ~ folds sender handle -> length replies = 1) /\
  ((forall t, text <> messagePrefix ++ t) \/ folds sender handle -> replies = [] /\ sent = []).
Proof.
  intros server handle sender text replies sent. unfold handle_dm.
  assert (SPp : forall pre t, strip_prefix pre (pre ++ t) = Some t).
  { induction pre as [|a pre IH]; intro t; cbn [strip_prefix app]; [destruct t; reflexivity|]. rewrite beqb_refl. apply IH. }
  assert (SPs : forall pre t x, strip_prefix pre t = Some x -> t = pre ++ x).
  { induction pre as [|a pre IH]; intros t x S; cbn [strip_prefix] in S.
    - injection S as <-. reflexivity.
    - destruct t as [|c t]; [discriminate S|]. destruct (byte_eqb a c) eqn:E; [|discriminate S].
      apply beqb_true in E. subst. cbn [app]. f_equal. auto. }
  destruct (EqualFold sender handle) eqn:E.
  { intro H; injection H as <- <-. cbn [length]. split; [lia|]. split; [intros ? ? []|]. split; [congruence|].
    split; [|auto]. intros t _ N. exfalso. apply N. apply EqualFold_spec. exact E. }
  destruct (strip_prefix messagePrefix text) as [msg|] eqn:S.
  - destruct (HandleRegistration server sender msg) as [res snt]. intro H; injection H as <- <-. cbn [length].
    split; [lia|]. split; [intros to t [X|[]]; congruence|]. split; [intros _ X; discriminate X|]. split; [reflexivity|].
    intros [X|X]; exfalso.
    + apply (X msg). apply SPs. exact S.
    + apply EqualFold_spec in X. congruence.
  - intro H; injection H as <- <-. cbn [length]. split; [lia|]. split; [intros ? ? []|]. split; [congruence|].
    split; [|auto]. intros t -> _. exfalso. unfold messagePrefix in S. rewrite SPp in S. discriminate S.
Qed.
Print Assumptions C45_replies_to_sender_only.

(** But an account has more than one name: the comparison ignores case, the
    directory does not.  Every account can register (at least) two different
    names. *)
Definition name1 (sender : bytes) : bytes := map lower sender ++ suffix.
Definition name2 (sender : bytes) : bytes := map lower sender ++ [x40; x54; x77; x69; x74; x74; x65; x72].  (* @Twitter *)
Lemma folds_refl s : folds s s.
Proof. induction s; [apply f_nil|apply f_letter; auto]. Qed.
Lemma folds_app a b s t : folds a b -> folds s t -> folds (a ++ s) (b ++ t).
Proof. intros H K. induction H; cbn [app]; auto; [apply f_letter|apply f_kelvin|apply f_long_s]; auto. Qed.
Theorem C45_several_names_refuted : forall sender, ascii sender ->
  name1 sender <> name2 sender /\
  forall n, n = name1 sender \/ n = name2 sender ->
  forall server msg k, json_parse msg = Some (CreateRegistrationMsg n k) ->
  snd (HandleRegistration server sender msg) = [msg].
Proof.
  intros sender A. split; [unfold name1, name2; intro H; apply app_inv_head in H; discriminate H|].
  intros n Hn server msg k P.
  assert (F : names_account n sender).
  { unfold names_account. destruct Hn as [-> | ->]; [apply folds_refl|]. apply folds_app; [apply folds_refl|].
    unfold suffix. repeat (apply f_letter; [reflexivity|]). apply f_nil. }
  assert (U : utf8 n).
  { assert (G : forall s, ascii s -> utf8 s).
    { intro s. induction s as [|c s IH]; intro As; [constructor|]. apply ascii_cons in As as [A1 A2]. apply u_1; auto.
      unfold in_rng. apply andb_true_iff. rewrite !N.leb_le. lia. }
    apply G. destruct Hn as [-> | ->]; intros c I; apply in_app_or in I as [I|I].
    1,3: apply in_map_iff in I as (x & <- & I); apply lower_ascii; auto.
    all: cbn in I; repeat (destruct I as [<-|I]; [reflexivity|]); destruct I. }
  destruct (C45_forwards_exactly_own_names server sender msg) as [(q & n' & k' & u & v & _ & _ & _ & _ & E)|[X _]].
  - rewrite E. reflexivity.
  - exfalso. eapply X; [rewrite P; cbn [obind]; apply registration_msg|reflexivity|reflexivity|].
    rewrite utf8_coerce_id by exact U. exact F.
Qed.
Print Assumptions C45_several_names_refuted.

Example C45_case : ascii [x41; x6c; x69; x63; x65] /\ names_account (name2 [x41; x6c; x69; x63; x65]) [x41; x6c; x69; x63; x65].
Proof.
  split; [intros c I; cbn in I; repeat (destruct I as [<-|I]; [reflexivity|]); destruct I|].
  apply EqualFold_spec. reflexivity.
Qed.
