(** C84: the command-line client as its user meets it: lines typed, lines on
    the screen, bytes on the connection. *)
From Coq Require Import List NArith ZArith Lia Bool Arith.
From Coq Require Import String.
From Verif Require Import Base Utils Crypto Tree TreeSpec STR PAD PADSpec PADFacts Protocol Directory DirSpec DirFacts DirMain
  Auditor AudSpec AudFacts Client ClientSpec ClientFacts JointFacts Prop_Directory Prop_Client Path Json JsonText Wire Text TextFacts
  ServerWire Conc Server Prop_Server Prop_Text Cli Prop_Cli Deploy BotDeploy Repl.
Import ListNotations.
Local Open Scope list_scope.
Local Open Scope nat_scope.
Notation length := List.length.
Notation concat := List.concat.

(** ** The words of a line *)

(** How a sequence of characters falls into words: blanks are dropped, and a
    word is a longest non-empty run of other characters. *)
Inductive splits : list bytes -> list bytes -> Prop :=
| sp_end : splits [] []
| sp_blank r rs l : is_space r = true -> splits rs l -> splits (r :: rs) l
| sp_word w rs l : w <> [] -> Forall (fun r => is_space r = false) w ->
    match rs with r :: _ => is_space r = true | [] => True end ->
    splits rs l -> splits (w ++ rs) (concat w :: l).

Lemma runes_cons s : s <> [] -> exists r t, runes s = r :: runes t /\ s = r ++ t /\ r <> [] /\
  ((exists b, r = [b]) \/ (utf8 r /\ 2 <= length r)).
Proof.
  destruct s as [|b0 s1]; [congruence|]. intros _. cbn [runes].
  assert (S1 : exists r t, [b0] :: runes s1 = r :: runes t /\ b0 :: s1 = r ++ t /\ r <> [] /\ ((exists b, r = [b]) \/ (utf8 r /\ 2 <= length r))).
  { exists [b0], s1. repeat split; [discriminate|]. left. eauto. }
  destruct (in_rng 0 127 b0); [exact S1|]. destruct s1 as [|b1 s2]; [exact S1|].
  destruct (in_rng 194 223 b0 && cont b1) eqn:E2.
  { apply andb_true_iff in E2 as [A B]. exists [b0; b1], s2. repeat split; [discriminate|]. right. split; [|cbn; lia]. apply u_2; auto. constructor. }
  destruct s2 as [|b2 s3]; [exact S1|].
  destruct (lead3 b0 b1 && cont b2) eqn:E3.
  { apply andb_true_iff in E3 as [A B]. exists [b0; b1; b2], s3. repeat split; [discriminate|]. right. split; [|cbn; lia]. apply u_3; auto. constructor. }
  destruct s3 as [|b3 s4]; [exact S1|].
  destruct (lead4 b0 b1 && cont b2 && cont b3) eqn:E4; [|exact S1].
  apply andb_true_iff in E4 as [E4 D]. apply andb_true_iff in E4 as [A B].
  exists [b0; b1; b2; b3], s4. repeat split; [discriminate|]. right. split; [|cbn; lia]. apply u_4; auto. constructor.
Qed.
Lemma runes_ind (P : bytes -> Prop) : P [] ->
  (forall s r t, runes s = r :: runes t -> s = r ++ t -> r <> [] -> ((exists b, r = [b]) \/ (utf8 r /\ 2 <= length r)) -> P t -> P s) -> forall s, P s.
Proof.
  intros A B s. assert (K : forall n s, length s <= n -> P s); [|apply (K (length s)); lia]. clear s.
  induction n as [|n IH]; intros s L; [destruct s; [exact A|cbn [length] in L; lia]|].
  destruct s as [|b s]; [exact A|]. destruct (runes_cons (b :: s) ltac:(discriminate)) as (r & t & E & F & G & H).
  apply (B _ r t); auto. apply IH. apply (f_equal (@List.length byte)) in F. rewrite app_length in F.
  destruct r; [congruence|]. cbn [length] in *. lia.
Qed.
Lemma runes_concat s : concat (runes s) = s.
Proof. induction s as [|s r t E F G H IH] using runes_ind; [reflexivity|]. rewrite E. cbn [concat]. rewrite IH. auto. Qed.
Lemma runes_nonempty s : Forall (fun r => r <> []) (runes s).
Proof. induction s as [|s r t E F G H IH] using runes_ind; [constructor|]. rewrite E. constructor; auto. Qed.

Lemma fields_splits : forall rs cur, Forall (fun r => r <> []) rs -> 
  forall w, concat w = cur -> Forall (fun r => is_space r = false) w -> Forall (fun r => r <> []) w ->
  splits (w ++ rs) (fields_from cur rs).
Proof.
  induction rs as [|r rs IH]; intros cur NE w CW SW NW; cbn [fields_from].
  - rewrite app_nil_r. destruct w as [|a w].
    + cbn in CW. subst cur. constructor.
    + assert (E : empty cur = false).
      { subst cur. inversion NW as [|? ? A B]; subst. destruct a; [congruence|reflexivity]. }
      rewrite E. subst cur. rewrite <- (app_nil_r (a :: w)) at 1. apply sp_word; auto; [discriminate|constructor].
  - inversion NE as [|? ? N1 N2]; subst. destruct (is_space r) eqn:S.
    + destruct w as [|a w].
      * cbn [concat empty app]. apply sp_blank; auto. apply (IH [] N2 []); auto.
      * assert (E : empty (concat (a :: w)) = false).
        { inversion NW as [|? ? A B]; subst. destruct a; [congruence|reflexivity]. }
        rewrite E. apply sp_word; auto; [discriminate|]. apply sp_blank; auto. apply (IH [] N2 []); auto.
    + replace (w ++ r :: rs) with ((w ++ [r]) ++ rs) by (rewrite <- app_assoc; reflexivity).
      apply IH; auto.
      * rewrite concat_app. cbn [concat]. rewrite app_nil_r. reflexivity.
      * apply Forall_app. auto.
      * apply Forall_app. auto.
Qed.
Lemma splits_fields rs l : splits rs l -> Forall (fun r => r <> []) rs -> fields_from [] rs = l.
Proof.
  induction 1 as [|r rs l S H IH|w rs l W SW NX H IH]; intro NE; [reflexivity| |].
  - cbn [fields_from]. rewrite S. cbn [empty]. inversion NE; auto.
  - apply Forall_app in NE as [NW NE]. specialize (IH NE).
    assert (K : forall w cur, Forall (fun r => is_space r = false) w -> fields_from cur (w ++ rs) = fields_from (cur ++ concat w) rs).
    { clear. induction w as [|a w IH]; intros cur F; [rewrite app_nil_r; reflexivity|]. inversion F; subst.
      cbn [app fields_from concat]. rewrite H1, IH by auto. rewrite <- app_assoc. reflexivity. }
    rewrite K by auto. cbn [app].
    assert (E : empty (concat w) = false).
    { destruct w as [|a w]; [congruence|]. inversion NW; subst. destruct a; [congruence|reflexivity]. }
    destruct rs as [|r rs]; cbn [fields_from] in *; [rewrite E; subst l; reflexivity|].
    rewrite NX in *. rewrite E. cbn [empty] in IH. rewrite IH. reflexivity.
Qed.

(** The words of any line, valid UTF-8 or not. *)
Theorem C84_words : forall line l, Fields line = l <-> splits (runes line) l.
Proof.
  intros line l. split.
  - intros <-. apply (fields_splits (runes line) [] (runes_nonempty line) []); auto.
  - intro H. apply splits_fields; auto. apply runes_nonempty.
Qed.
Print Assumptions C84_words.
(** ... where the characters are those of the line, in order, each a UTF-8
    character or a single byte. *)
Theorem C84_characters : forall line, concat (runes line) = line /\
  Forall (fun r => (exists b, r = [b]) \/ utf8 r) (runes line).
Proof.
  intro line. split; [apply runes_concat|].
  induction line as [|s r t E F G H IH] using runes_ind; [constructor|]. rewrite E. constructor; [tauto|exact IH].
Qed.
Print Assumptions C84_characters.

Lemma runes_app s t : utf8 s -> runes (s ++ t) = runes s ++ runes t.
Proof.
  induction 1 as [|b0 s H U IH|b0 b1 s H H0 U IH|b0 b1 b2 s H H0 U IH|b0 b1 b2 b3 s H H0 H1 U IH]; cbn [app runes]; auto.
  - rewrite H, IH. reflexivity.
  - assert (in_rng 0 127 b0 = false) as ->.
    { unfold in_rng in *. apply andb_true_iff in H as [A B]. apply N.leb_le in A.
      apply andb_false_iff. right. apply N.leb_gt. lia. }
    rewrite H, H0, IH. reflexivity.
  - assert (A : (224 <= Byte.to_N b0)%N).
    { unfold lead3, in_rng in H. repeat rewrite ?andb_true_iff, ?orb_true_iff, ?N.leb_le in H. lia. }
    assert (in_rng 0 127 b0 = false) as -> by (apply andb_false_iff; right; apply N.leb_gt; lia).
    assert (in_rng 194 223 b0 = false) as -> by (apply andb_false_iff; right; apply N.leb_gt; lia).
    cbn [andb]. rewrite H, H0, IH. reflexivity.
  - assert (A : (240 <= Byte.to_N b0)%N).
    { unfold lead4, in_rng in H. repeat rewrite ?andb_true_iff, ?orb_true_iff, ?N.leb_le in H. lia. }
    assert (in_rng 0 127 b0 = false) as -> by (apply andb_false_iff; right; apply N.leb_gt; lia).
    assert (in_rng 194 223 b0 = false) as -> by (apply andb_false_iff; right; apply N.leb_gt; lia).
    assert (lead3 b0 b1 = false) as ->.
    { unfold lead3, in_rng. repeat rewrite ?orb_false_iff, ?andb_false_iff, ?N.leb_gt. lia. }
    cbn [andb]. rewrite H, H0, H1, IH. reflexivity.
Qed.
(** A word, as a user may type it: UTF-8, not empty, no blank in it. *)
Definition word (w : bytes) : Prop := utf8 w /\ w <> [] /\ Forall (fun r => is_space r = false) (runes w).
(** Blanks. *)
Definition blank (g : bytes) : Prop := utf8 g /\ Forall (fun r => is_space r = true) (runes g).
(** A line with words [l], [g] before the first. *)
Fixpoint typed (g : bytes) (l : list (bytes * bytes)) : bytes :=
  match l with [] => g | (w, g') :: l' => g ++ w ++ typed g' l' end.
Fixpoint well_typed (g : bytes) (l : list (bytes * bytes)) : Prop :=
  match l with
  | [] => blank g
  | (w, g') :: l' => blank g /\ word w /\ (l' <> [] -> g' <> []) /\ well_typed g' l'
  end.
Theorem C84_words_typed : forall l g, well_typed g l -> Fields (typed g l) = map fst l.
Proof.
  intros l g W. apply C84_words. revert g W. induction l as [|[w g'] l IH]; intros g W; cbn [typed well_typed map fst] in *.
  - destruct W as [U B]. induction B as [|r rs S F IH]; constructor; auto.
  - destruct W as ([U B] & (UW & NW & SW) & NG & W). rewrite runes_app by exact U.
    induction B as [|r rs S F IHB]; [|cbn [app]; constructor; auto]. cbn [app]. rewrite runes_app by exact UW.
    assert (G : splits (runes w ++ runes (typed g' l)) (concat (runes w) :: map fst l)); [|rewrite runes_concat in G; exact G].
    apply sp_word; auto.
    { intro E. apply NW. rewrite <- (runes_concat w), E. reflexivity. }
    assert (BL : forall g t, blank g -> g <> [] -> match runes (g ++ t) with r :: _ => is_space r = true | [] => True end).
    { clear. intros g t [U B] NE. rewrite runes_app by exact U. destruct (runes g) eqn:E.
      - destruct NE. rewrite <- (runes_concat g), E. reflexivity.
      - inversion B; subst. cbn [app]. assumption. }
    destruct l as [|[w2 g2] l]; cbn [typed well_typed] in *.
    + destruct W as [U' B']. destruct B'; auto.
    + apply BL; [tauto|]. apply NG. discriminate.
Qed.
Print Assumptions C84_words_typed.

(** ** One line *)

Definition cmd_register : bytes := key "register".
Definition cmd_lookup : bytes := key "lookup".
Definition plus (t : bytes) : bytes := key "[+] " ++ t.

(** What a line leads to: nothing but text, or one request and its answer. *)
Lemma turn_cases {C : Crypto} host conf st line x e : turn host conf st line x = Ok e ->
  (ef_sent e = [] /\ rp_cc (ef_state e) = rp_cc st /\
   (forall b t, In (b, t) (ef_shown e) -> t <> [] /\ (forall u, t <> plus u) \/ t = plus (key "See ya.") \/ t = plus (key "Invalid config!"))) \/
  (exists name k cc' s, Fields line = [cmd_register; name; k] /\ usable host (reg_address conf) = Ok true /\
     register (rp_cc st) (answer_of x) name k = Ok (cc', s) /\
     e = mkEffect (mkRepl (rp_debug st) cc') [(rp_debug st, plus (message (error_of x) s))]
           [(reg_address conf, json_text (CreateRegistrationMsg name k))] true) \/
  (exists name cc' s, Fields line = [cmd_lookup; name] /\ usable host (cl_addr conf) = Ok true /\
     keyLookup (rp_cc st) (answer_of x) name = Ok (cc', s) /\
     e = mkEffect (mkRepl (rp_debug st) cc') [(rp_debug st, plus (message (error_of x) s))]
           [(cl_addr conf, json_text (CreateKeyLookupMsg name))] true).
Proof.
  assert (BANG : forall t, key "[!] " ++ t <> [] /\ forall u, key "[!] " ++ t <> plus u).
  { intro t. split; [discriminate|]. intros u E. discriminate E. }
  assert (Q : forall t f g, ef_sent (mkEffect st [(f, key "[!] " ++ t)] [] g) = [] /\ rp_cc (ef_state (mkEffect st [(f, key "[!] " ++ t)] [] g)) = rp_cc st /\
    (forall b t', In (b, t') (ef_shown (mkEffect st [(f, key "[!] " ++ t)] [] g)) -> t' <> [] /\ (forall u, t' <> plus u) \/ t' = plus (key "See ya.") \/ t' = plus (key "Invalid config!"))).
  { intros t f g. cbn [ef_sent ef_state ef_shown]. split; [reflexivity|]. split; [reflexivity|].
    intros b t' [E|[]]. injection E as <- <-. left. apply BANG. }
  assert (INV : ef_sent (says st (plus (key "Invalid config!"))) = [] /\ rp_cc (ef_state (says st (plus (key "Invalid config!")))) = rp_cc st /\
    (forall b t', In (b, t') (ef_shown (says st (plus (key "Invalid config!")))) -> t' <> [] /\ (forall u, t' <> plus u) \/ t' = plus (key "See ya.") \/ t' = plus (key "Invalid config!"))).
  { unfold says. cbn [ef_sent ef_state ef_shown]. split; [reflexivity|]. split; [reflexivity|].
    intros b t' [E|[]]. injection E as <- <-. auto. }
  unfold turn. intro H. destruct (Fields line) as [|cmd rest] eqn:F.
  { injection H as <-. left. exact (Q (key "Type ""help"" for more information.") _ _). }
  destruct (beq cmd (key "exit") || beq cmd (key "q")).
  { injection H as <-. left. cbn [ef_sent ef_state ef_shown]. split; [reflexivity|]. split; [reflexivity|].
    intros b t [E|[]]. injection E as <- <-. auto. }
  destruct (beq cmd (key "help")).
  { injection H as <-. left. cbn [ef_sent ef_state ef_shown]. split; [reflexivity|]. split; [reflexivity|].
    intros b t [E|[]]. injection E as <- <-. left. split; [discriminate|]. intros u E. discriminate E. }
  destruct (beq cmd (key "enable") || beq cmd (key "disable")).
  { assert (U : Ok (says st (key "[!] Unrecognized command: " ++ line)) = Ok e -> 
        ef_sent e = [] /\ rp_cc (ef_state e) = rp_cc st /\
        (forall b t, In (b, t) (ef_shown e) -> t <> [] /\ (forall u, t <> plus u) \/ t = plus (key "See ya.") \/ t = plus (key "Invalid config!"))).
    { intro E. injection E as <-. exact (Q (key "Unrecognized command: " ++ line) _ _). }
    left. destruct rest as [|what [|? ?]]; [exact (U H)| |exact (U H)].
    destruct (beq what (key "timestamp")); [|exact (U H)]. injection H as <-. cbn [ef_sent ef_state ef_shown rp_cc].
    split; [reflexivity|]. split; [reflexivity|]. intros b t []. }
  destruct (beq_spec cmd (key "register")) as [->|_].
  { assert (U : Ok (says st (key "[!] Incorrect number of args to register.")) = Ok e -> 
        ef_sent e = [] /\ rp_cc (ef_state e) = rp_cc st /\
        (forall b t, In (b, t) (ef_shown e) -> t <> [] /\ (forall u, t <> plus u) \/ t = plus (key "See ya.") \/ t = plus (key "Invalid config!"))).
    { intro E. injection E as <-. exact (Q (key "Incorrect number of args to register.") _ _). }
    destruct rest as [|name [|k [|? ?]]]; [left; exact (U H)|left; exact (U H)| |left; exact (U H)]. clear U.
    unfold do_register in H. destruct (usable host (reg_address conf)) as [[]|] eqn:US; cbn [bind negb] in H; [| |discriminate H].
    - destruct (register (rp_cc st) (answer_of x) name k) as [[cc' s]|] eqn:R; cbn [bind] in H; [|discriminate H].
      injection H as <-. right. left. exists name, k, cc', s. auto.
    - injection H as <-. left. exact INV. }
  destruct (beq_spec cmd (key "lookup")) as [->|_].
  { assert (U : Ok (says st (key "[!] Incorrect number of args to lookup.")) = Ok e -> 
        ef_sent e = [] /\ rp_cc (ef_state e) = rp_cc st /\
        (forall b t, In (b, t) (ef_shown e) -> t <> [] /\ (forall u, t <> plus u) \/ t = plus (key "See ya.") \/ t = plus (key "Invalid config!"))).
    { intro E. injection E as <-. exact (Q (key "Incorrect number of args to lookup.") _ _). }
    destruct rest as [|name [|? ?]]; [left; exact (U H)| |left; exact (U H)]. clear U.
    unfold do_lookup in H. destruct (usable host (cl_addr conf)) as [[]|] eqn:US; cbn [bind negb] in H; [| |discriminate H].
    - destruct (keyLookup (rp_cc st) (answer_of x) name) as [[cc' s]|] eqn:R; cbn [bind] in H; [|discriminate H].
      injection H as <-. right. right. exists name, cc', s. auto.
    - injection H as <-. left. exact INV. }
  injection H as <-. left. exact (Q (key "Unrecognized command: " ++ cmd) _ _).
Qed.

(** *** What goes out *)

(** Only [register name key] and [lookup name] send anything, and that is one
    request, which the server reads as this registration or lookup (with the
    name made UTF-8); no other line touches what the client has verified. *)
Theorem C84_traffic : forall (C : Crypto) host conf st line x e, turn host conf st line x = Ok e ->
  (ef_sent e = [] /\ rp_cc (ef_state e) = rp_cc st) \/
  (exists name k t, Fields line = [key "register"; name; k] /\ ef_sent e = [(if empty (cl_reg conf) then cl_addr conf else cl_reg conf, t)] /\
     (length t <= 8192 -> obind (received t) UnmarshalRequest = Some (mkReq RegistrationType (WRegistration (utf8_coerce name) k false false)))) \/
  (exists name t, Fields line = [key "lookup"; name] /\ ef_sent e = [(cl_addr conf, t)] /\
     (length t <= 8192 -> obind (received t) UnmarshalRequest = Some (mkReq KeyLookupType (WKeyLookup (utf8_coerce name))))).
Proof.
  intros C host conf st line x e H. destruct (turn_cases _ _ _ _ _ _ H) as [(A & B & _)|[(n & k & cc' & s & F & _ & _ & ->)|(n & cc' & s & F & _ & _ & ->)]].
  - left. auto.
  - right. left. exists n, k, (json_text (CreateRegistrationMsg n k)). split; [exact F|]. split; [reflexivity|].
    apply (C65_client_messages n k).
  - right. right. exists n, (json_text (CreateKeyLookupMsg n)). split; [exact F|]. split; [reflexivity|].
    apply (C65_client_messages n []).
Qed.
Print Assumptions C84_traffic.

(** *** What is shown *)

(** The texts of the different outcomes are different. *)
Lemma messages_apart ne ne' s s' : message ne s = message ne' s' ->
  match s with
  | SRegistered _ | SAlreadyRegistered | SKeyChange | SNotRegistered | SFound _ => s' = s
  | _ => True
  end.
Proof.
  intro H. destruct s; try exact I; destruct s'; try (exfalso; vm_compute in H; discriminate H).
  - cbn [message] in H. apply app_inv_head in H. congruence.
  - reflexivity.
  - reflexivity.
  - cbn [message] in H. apply app_inv_head in H. apply app_inv_tail in H. congruence.
  - reflexivity.
Qed.

Definition t_registered (name : bytes) : bytes := key "[+] Succesfully registered name: " ++ name.
Definition t_already : bytes := key "[+] Name is already registered.".
Definition t_found (k : bytes) : bytes := key "[+] Found! Key bound to name is: [" ++ k ++ key "]".
Definition t_unknown : bytes := key "[+] Name isn't registered.".

(** The bytes [s], in answer to [line], carry a response that passes all the
    checks of the client ([acceptable], ClientSpec.v) and says [text]. *)
Definition backed {C : Crypto} (cc : Checks) (line s text : bytes) : Prop :=
  (exists name k msg, Fields line = [key "register"; name; k] /\
     UnmarshalResponse RegistrationType (received s) = Ok msg /\ acceptable cc RegistrationType msg name (Some k) /\
     ((r_error msg = ReqSuccess /\ text = t_registered name) \/ (r_error msg = ReqNameExisted /\ text = t_already))) \/
  (exists name msg, Fields line = [key "lookup"; name] /\
     UnmarshalResponse KeyLookupType (received s) = Ok msg /\ acceptable cc KeyLookupType msg name (stored_key cc name) /\
     ((r_error msg = ReqSuccess /\ text = t_found []) \/ (r_error msg = ReqNameNotFound /\ text = t_unknown))).
Definition good_news (text : bytes) : Prop :=
  (exists name, text = t_registered name) \/ text = t_already \/ (exists k, text = t_found k) \/ text = t_unknown.

Lemma good_said ne s : good_news (plus (message ne s)) ->
  (exists n, s = SRegistered n) \/ s = SAlreadyRegistered \/ (exists k, s = SFound k) \/ s = SNotRegistered.
Proof.
  intros [(n & H)|[H|[(k & H)|H]]].
  - assert (E : message [] (SRegistered n) = message ne s) by (apply (app_inv_head (key "[+] ")); symmetry; exact H).
    left. exists n. exact (messages_apart _ _ _ _ E).
  - assert (E : message [] SAlreadyRegistered = message ne s) by (apply (app_inv_head (key "[+] ")); symmetry; exact H).
    right. left. exact (messages_apart _ _ _ _ E).
  - assert (E : message [] (SFound k) = message ne s) by (apply (app_inv_head (key "[+] ")); symmetry; exact H).
    right. right. left. exists k. exact (messages_apart _ _ _ _ E).
  - assert (E : message [] SNotRegistered = message ne s) by (apply (app_inv_head (key "[+] ")); symmetry; exact H).
    right. right. right. exact (messages_apart _ _ _ _ E).
Qed.
Lemma good_plus t : good_news t -> exists u, t = plus u.
Proof.
  intros [(n & ->)|[->|[(k & ->)| ->]]].
  - exists (message [] (SRegistered n)). reflexivity.
  - exists (message [] SAlreadyRegistered). reflexivity.
  - exists (message [] (SFound k)). reflexivity.
  - exists (message [] SNotRegistered). reflexivity.
Qed.
Lemma register_name {C : Crypto} cc res name k cc' n : register cc res name k = Ok (cc', SRegistered n) -> n = name.
Proof.
  unfold register. destruct res as [j|]; [|discriminate]. destruct (UnmarshalResponse _ j) as [msg|]; cbn [bind]; [|discriminate].
  destruct (HandleResponse _ _ _ _ _) as [[c1 [e|]]|]; cbn [bind]; [| |discriminate]; intro H; injection H as _ H.
  - destruct (Z.eqb e _); [discriminate H|]. destruct (Z.eqb e _); [|discriminate H].
    destruct (Z.eqb _ _); [discriminate H|]. destruct (Z.eqb _ _); discriminate H.
  - destruct (Z.eqb _ _); [injection H as <-; reflexivity|]. destruct (Z.eqb _ _); discriminate H.
Qed.
Lemma register_not_found {C : Crypto} cc res name k cc' : (forall x, register cc res name k <> Ok (cc', SFound x)) /\ register cc res name k <> Ok (cc', SNotRegistered).
Proof.
  unfold register. destruct res as [j|]; [|split; intros; discriminate]. destruct (UnmarshalResponse _ j) as [msg|]; cbn [bind]; [|split; intros; discriminate].
  destruct (HandleResponse _ _ _ _ _) as [[c1 [e|]]|]; cbn [bind]; [| |split; intros; discriminate];
    (split; [intros x H|intro H]; injection H as _ H;
     repeat match type of H with (if ?b then _ else _) = _ => destruct b end; discriminate H).
Qed.
Lemma lookup_not_registered {C : Crypto} cc res name cc' : (forall x, keyLookup cc res name <> Ok (cc', SRegistered x)) /\ keyLookup cc res name <> Ok (cc', SAlreadyRegistered).
Proof.
  unfold keyLookup. destruct res as [j|]; [|split; intros; discriminate]. destruct (UnmarshalResponse _ j) as [msg|]; cbn [bind]; [|split; intros; discriminate].
  destruct (HandleResponse _ _ _ _ _) as [[c1 [e|]]|]; cbn [bind]; [| |split; intros; discriminate];
    (split; [intros x H|intro H]; injection H as _ H;
     repeat match type of H with (if ?b then _ else _) = _ => destruct b end; discriminate H).
Qed.

Lemma shown_backed {C : Crypto} host conf st line x e b text : cc_useTBs (rp_cc st) = true -> good_news text ->
  turn host conf st line x = Ok e -> In (b, text) (ef_shown e) -> exists s, x = RBytes s /\ backed (rp_cc st) line s text.
Proof.
  intros U G H I.
  destruct (turn_cases _ _ _ _ _ _ H) as [(_ & _ & Q)|[(n & k & cc' & s & F & UA & R & ->)|(n & cc' & s & F & UA & R & ->)]].
  - exfalso. destruct (good_plus _ G) as (u & ->). destruct (Q _ _ I) as [[_ X]|[X|X]]; [exact (X u eq_refl)| |];
      rewrite X in G; destruct G as [(n & G)|[G|[(k & G)|G]]]; vm_compute in G; discriminate G.
  - cbn [ef_shown] in I. destruct I as [I|[]]. injection I as <- <-. apply good_said in G.
    destruct x as [t|s0]; cbn [answer_of error_of] in *; [cbn [register] in R; injection R as _ <-; destruct G as [(? & G)|[G|[(? & G)|G]]]; discriminate G|].
    exists s0. split; [reflexivity|]. left. destruct (C57_good_news_iff C (rp_cc st) (received s0) n k U) as (A & B & _).
    destruct G as [(n' & ->)|[->|[(k' & ->)| ->]]].
    + pose proof (register_name _ _ _ _ _ _ R) as ->. destruct (proj1 A (ex_intro _ cc' R)) as (msg & M & E & AC).
      exists n, k, msg. split; [exact F|]. split; [exact M|]. split; [exact AC|]. left. split; [exact E|reflexivity].
    + destruct (proj1 B (ex_intro _ cc' R)) as (msg & M & E & AC).
      exists n, k, msg. split; [exact F|]. split; [exact M|]. split; [exact AC|]. right. split; [exact E|reflexivity].
    + destruct (proj1 (register_not_found _ _ _ _ _) _ R).
    + destruct (proj2 (register_not_found _ _ _ _ _) R).
  - cbn [ef_shown] in I. destruct I as [I|[]]. injection I as <- <-. apply good_said in G.
    destruct x as [t|s0]; cbn [answer_of error_of] in *; [cbn [keyLookup] in R; injection R as _ <-; destruct G as [(? & G)|[G|[(? & G)|G]]]; discriminate G|].
    exists s0. split; [reflexivity|]. right. destruct (C57_good_news_iff C (rp_cc st) (received s0) n [] U) as (_ & _ & A & B).
    destruct G as [(n' & ->)|[->|[(k' & ->)| ->]]].
    + destruct (proj1 (lookup_not_registered _ _ _ _) _ R).
    + destruct (proj2 (lookup_not_registered _ _ _ _) R).
    + pose proof (proj1 (C57_key_never_shown_refuted C (rp_cc st) (Some (received s0)) n [] cc') _ R) as ->.
      destruct (proj1 A (ex_intro _ cc' (ex_intro _ [] R))) as (msg & M & E & AC).
      exists n, msg. split; [exact F|]. split; [exact M|]. split; [exact AC|]. left. split; [exact E|reflexivity].
    + destruct (proj1 B (ex_intro _ cc' R)) as (msg & M & E & AC).
      exists n, msg. split; [exact F|]. split; [exact M|]. split; [exact AC|]. right. split; [exact E|reflexivity].
Qed.
(** Whatever arrives: the screen announces a registration, a binding or an
    absence exactly if the bytes received back it. *)
Theorem C84_good_news_iff : forall (C : Crypto) host conf st line x text, cc_useTBs (rp_cc st) = true -> good_news text ->
  usable host (cl_addr conf) = Ok true -> usable host (reg_address conf) = Ok true ->
  ((exists e b, turn host conf st line x = Ok e /\ In (b, text) (ef_shown e)) <->
   (exists s, x = RBytes s /\ backed (rp_cc st) line s text)).
Proof.
  intros C host conf st line x text U G UA UR. split.
  - intros (e & b & H & I). exact (shown_backed _ _ _ _ _ _ _ _ U G H I).
  - intros (s & -> & [(n & k & msg & F & M & AC & X)|(n & msg & F & M & AC & X)]).
    + assert (T : turn host conf st line (RBytes s) = do_register host conf st (RBytes s) n k).
      { unfold turn. rewrite F. reflexivity. }
      rewrite T. unfold do_register. rewrite UR. cbn [bind negb answer_of error_of].
      destruct (C57_good_news_iff C (rp_cc st) (received s) n k U) as (A & B & _). destruct X as [(E & ->)|(E & ->)].
      * destruct (proj2 A (ex_intro _ msg (conj M (conj E AC)))) as (cc' & ->). cbn [bind]. eexists _, _. split; [reflexivity|]. left. reflexivity.
      * destruct (proj2 B (ex_intro _ msg (conj M (conj E AC)))) as (cc' & ->). cbn [bind]. eexists _, _. split; [reflexivity|]. left. reflexivity.
    + assert (T : turn host conf st line (RBytes s) = do_lookup host conf st (RBytes s) n).
      { unfold turn. rewrite F. reflexivity. }
      rewrite T. unfold do_lookup. rewrite UA. cbn [bind negb answer_of error_of].
      destruct (C57_good_news_iff C (rp_cc st) (received s) n [] U) as (_ & _ & A & B). destruct X as [(E & ->)|(E & ->)].
      * destruct (proj2 A (ex_intro _ msg (conj M (conj E AC)))) as (cc' & k & R).
        pose proof (proj1 (C57_key_never_shown_refuted C (rp_cc st) (Some (received s)) n [] cc') _ R) as ->.
        rewrite R. cbn [bind]. eexists _, _. split; [reflexivity|]. left. reflexivity.
      * destruct (proj2 B (ex_intro _ msg (conj M (conj E AC)))) as (cc' & ->). cbn [bind]. eexists _, _. split; [reflexivity|]. left. reflexivity.
Qed.
Print Assumptions C84_good_news_iff.

(** Every error has a text. *)
Definition named (e : ErrorCode) : Prop := error_text e <> [].
Ltac nm := solve [let E := fresh in intro E; vm_compute in E; discriminate E].
Lemma validate_named msg e : Validate msg = Ok (Some e) -> named e.
Proof.
  unfold Validate. destruct (is_error (r_error msg)) eqn:IE.
  - intro H. injection H as <-. unfold is_error in IE. repeat rewrite orb_true_iff in IE.
    destruct IE as [[IE|IE]|IE]; apply Z.eqb_eq in IE; rewrite IE; nm.
  - destruct (r_df msg) as [[[df|]|[[|? ?]|]]|]; try discriminate.
    + destruct (dp_str df); [intro H; injection H as <-; nm|]. destruct (dp_ap df); [intro H; injection H as <-; nm|discriminate].
    + intro H; injection H as <-; nm.
    + intro H; injection H as <-; nm.
Qed.
Lemma consistency_named {C : Crypto} a prev str e : verifySTRConsistency a prev str = Ok (Some e) -> named e.
Proof.
  unfold verifySTRConsistency. destruct (DirSTR_Serialize str); cbn [bind]; [|discriminate].
  destruct (str_sig str); cbn [bind]; [|discriminate]. destruct (negb _); [intro H; injection H as <-; nm|].
  destruct (deref prev); cbn [bind]; [|discriminate]. destruct (DirSTR_VerifyHashChain str _) as [[]|]; cbn [bind]; [discriminate| |discriminate].
  intro H; injection H as <-; nm.
Qed.
Lemma audit_named {C : Crypto} a str e : AuditDirectory a [str] = Ok (Some e) -> named e.
Proof.
  unfold AuditDirectory, CheckSTRAgainstVerified. destruct str as [str|]; cbn [deref bind]; [|discriminate].
  destruct (str_epoch str); cbn [bind]; [|discriminate]. destruct (str_epoch (au_str a)); cbn [bind]; [|discriminate].
  destruct (N.eqb _ _).
  - destruct (dir_eqb _ _); cbn [bind VerifySTRRange]; [discriminate|]. intro H; injection H as <-; nm.
  - destruct (N.eqb _ _); cbn [bind]; [|intro H; injection H as <-; nm].
    destruct (verifySTRConsistency a _ str) as [[x|]|] eqn:V; cbn [bind VerifySTRRange]; try discriminate.
    intro H; injection H as <-. eapply consistency_named; eauto.
Qed.
Lemma promise_named {C : Crypto} cc df k e : verifyReturnedPromise cc df k = Ok (Some e) -> named e.
Proof.
  unfold verifyReturnedPromise. destruct (ap0 df) as [ap|]; cbn [bind]; [|discriminate]. destruct (str0 df) as [str|]; cbn [bind]; [|discriminate].
  destruct (dp_tb df) as [tb|]; [|intro H; injection H as <-; nm].
  destruct (deref str) as [s|]; cbn [bind]; [|discriminate]. destruct (str_sig s); cbn [bind]; [|discriminate].
  destruct (negb _); [intro H; injection H as <-; nm|]. destruct (deref ap); cbn [bind]; [|discriminate].
  destruct (negb _); [intro H; injection H as <-; nm|]. destruct k; [|discriminate]. destruct (beq _ _); [discriminate|].
  intro H; injection H as <-; nm.
Qed.
Lemma path_named {C : Crypto} n k ap str e : verifyAuthPath n k ap str = Ok (Some e) -> named e.
Proof.
  unfold verifyAuthPath. destruct (deref (d_pol str)); cbn [bind]; [|discriminate]. destruct (negb _); [intro H; injection H as <-; nm|].
  destruct (deref (ap_leaf ap)); cbn [bind]; [|discriminate]. destruct (deref (d_body str)); cbn [bind]; [|discriminate].
  destruct (Verify _ _ _ _) as [[[]|]|]; cbn [bind]; try discriminate; intro H; injection H as <-; nm.
Qed.
Lemma handle_named {C : Crypto} cc t msg n k cc' e : HandleResponse cc t msg n k = Ok (cc', Some e) -> named e.
Proof.
  unfold HandleResponse. destruct (Validate msg) as [[e0|]|] eqn:V; cbn [bind]; [| |discriminate].
  { intro H. injection H as _ <-. eapply validate_named; eauto. }
  destruct (_ || _ || _ || _); [|discriminate].
  destruct (r_df msg) as [[[df|]|l]|]; try discriminate; [|intro H; injection H as _ <-; nm|intro H; injection H as _ <-; nm].
  destruct (updateSTR cc t df) as [[c1 [e0|]]|] eqn:US; cbn [bind]; [| |discriminate].
  { intro H. injection H as _ <-. unfold updateSTR in US. destruct (_ || _); [|discriminate US].
    destruct (str0 df) as [str|]; cbn [bind] in US; [|discriminate US].
    destruct (AuditDirectory (cc_aud cc) [str]) as [[e1|]|] eqn:AD; cbn [bind] in US; [| |discriminate US].
    - injection US as _ <-. eapply audit_named; eauto.
    - destruct (deref str); discriminate US. }
  destruct (checkConsistency c1 t (r_error msg) df n k) as [[e0|]|] eqn:CK; cbn [bind]; [| |discriminate].
  { intro H. injection H as _ <-. unfold checkConsistency, verifyRegistration, verifyKeyLookup in CK.
    destruct (Z.eqb t RegistrationType); [|destruct (Z.eqb t KeyLookupType); [|discriminate CK]];
    (destruct (ap0 df) as [ap|]; cbn [bind] in CK; [|discriminate CK]; destruct (str0 df) as [str|]; cbn [bind] in CK; [|discriminate CK];
     destruct (proofType ap) as [pt|]; cbn [bind] in CK; [|discriminate CK];
     destruct (_ || _ || _); [|injection CK as <-; nm];
     destruct (deref ap) as [ap'|]; cbn [bind] in CK; [|discriminate CK]; destruct (deref str) as [s'|]; cbn [bind] in CK; [|discriminate CK];
     eapply path_named; eauto). }
  destruct (updateTBs c1 t (r_error msg) df n k) as [[c2 [e0|]]|] eqn:TB; cbn [bind]; [|discriminate|discriminate].
  intro H. injection H as _ <-. unfold updateTBs in TB. destruct (negb _); [discriminate TB|].
  assert (RP : (do err <- verifyReturnedPromise c1 df k;
                match err with Some x => Ok (c1, Some x) | None => do c' <- store_tb c1 n (dp_tb df); Ok (c', None) end) = Ok (c2, Some e0) -> named e0).
  { destruct (verifyReturnedPromise c1 df k) as [[x|]|] eqn:R; cbn [bind]; [| |discriminate].
    - intro H. injection H as _ <-. eapply promise_named; eauto.
    - destruct (store_tb _ _ _); discriminate. }
  destruct (Z.eqb t RegistrationType).
  { destruct (ap0 df) as [ap|]; cbn [bind] in TB; [|discriminate TB]. destruct (proofType ap) as [pt|]; cbn [bind] in TB; [|discriminate TB].
    destruct (isAbsence pt); [exact (RP TB)|discriminate TB]. }
  destruct (Z.eqb t KeyLookupType); [|discriminate TB].
  destruct (ap0 df) as [ap|]; cbn [bind] in TB; [|discriminate TB]. destruct (proofType ap) as [pt|]; cbn [bind] in TB; [|discriminate TB].
  destruct (_ && negb _).
  - destruct (deref ap) as [ap'|]; cbn [bind] in TB; [|discriminate TB].
    destruct (verifyFulfilledPromise c1 n ap') as [[x|]|] eqn:VF; cbn [bind] in TB; [|discriminate TB|discriminate TB].
    injection TB as _ <-. unfold verifyFulfilledPromise in VF. destruct (map_get _ _ _); [|discriminate VF].
    destruct (deref (ap_leaf ap')); cbn [bind] in VF; [|discriminate VF]. destruct (_ || _); [injection VF as <-; nm|discriminate VF].
  - destruct (_ && _); [exact (RP TB)|discriminate TB].
Qed.

(** The texts which are given for nothing. *)
Lemma message_something ne s : s <> SNothing -> (forall e, s = SError e -> named e) ->
  plus (message ne s) <> key "[+] " /\ plus (message ne s) <> key "[+] Error: ".
Proof.
  intros NS NE. split; intro H.
  - change (key "[+] ") with (key "[+] " ++ []) in H. apply app_inv_head in H.
    destruct s; try (vm_compute in H; discriminate H). apply NS. reflexivity.
  - change (key "[+] Error: ") with (key "[+] " ++ key "Error: ") in H. apply app_inv_head in H.
    destruct s; try (vm_compute in H; discriminate H).
    change (key "Error: " ++ error_text e = key "Error: ") in H. rewrite <- (app_nil_r (key "Error: ")) in H at 2. apply app_inv_head in H.
    exact (NE e eq_refl H).
Qed.
Lemma register_named {C : Crypto} cc res name k cc' e : register cc res name k = Ok (cc', SError e) -> named e.
Proof.
  unfold register. destruct res as [j|]; [|discriminate]. destruct (UnmarshalResponse _ j) as [msg|]; cbn [bind]; [|discriminate].
  destruct (HandleResponse _ _ _ _ _) as [[c1 [e0|]]|] eqn:H; cbn [bind]; [| |discriminate]; intro X; injection X as _ X;
    repeat match type of X with (if ?b then _ else _) = _ => destruct b end; try discriminate X.
  injection X as <-. eapply handle_named; eauto.
Qed.
Lemma lookup_named {C : Crypto} cc res name cc' e : keyLookup cc res name = Ok (cc', SError e) -> named e.
Proof.
  unfold keyLookup. destruct res as [j|]; [|discriminate]. destruct (UnmarshalResponse _ j) as [msg|]; cbn [bind]; [|discriminate].
  destruct (HandleResponse _ _ _ _ _) as [[c1 [e0|]]|] eqn:H; cbn [bind]; [| |discriminate]; intro X; injection X as _ X;
    repeat match type of X with (if ?b then _ else _) = _ => destruct b end; try discriminate X.
  injection X as <-. eapply handle_named; eauto.
Qed.

(** *** The user is always told *)
Lemma turn_one {C : Crypto} host conf st line x e : turn host conf st line x = Ok e ->
  (exists b t, ef_shown e = [(b, t)]) \/
  (ef_shown e = [] /\ (Fields line = [key "enable"; key "timestamp"] \/ Fields line = [key "disable"; key "timestamp"])).
Proof.
  unfold turn, says, do_register, do_lookup. intro H. destruct (Fields line) as [|cmd rest]; [injection H as <-; left; eexists _, _; reflexivity|].
  destruct (beq cmd (key "exit") || beq cmd (key "q")); [injection H as <-; left; eexists _, _; reflexivity|].
  destruct (beq cmd (key "help")); [injection H as <-; left; eexists _, _; reflexivity|].
  destruct (beq_spec cmd (key "enable")) as [->|N1]; [|destruct (beq_spec cmd (key "disable")) as [->|N2]]; cbn [orb] in H.
  - destruct rest as [|what [|? ?]]; [injection H as <-; left; eexists _, _; reflexivity| |injection H as <-; left; eexists _, _; reflexivity].
    destruct (beq_spec what (key "timestamp")) as [E|E]; injection H as <-; [rewrite E; right; auto|left; eexists _, _; reflexivity].
  - destruct rest as [|what [|? ?]]; [injection H as <-; left; eexists _, _; reflexivity| |injection H as <-; left; eexists _, _; reflexivity].
    destruct (beq_spec what (key "timestamp")) as [E|E]; injection H as <-; [rewrite E; right; auto|left; eexists _, _; reflexivity].
  - left. destruct (beq cmd (key "register")).
    { destruct rest as [|n [|k [|? ?]]]; [injection H as <-; eexists _, _; reflexivity|injection H as <-; eexists _, _; reflexivity| |injection H as <-; eexists _, _; reflexivity].
      destruct (usable host (reg_address conf)) as [[]|]; cbn [bind negb] in H; [| |discriminate H]; [|injection H as <-; eexists _, _; reflexivity].
      destruct (register _ _ _ _) as [[? ?]|]; cbn [bind] in H; [|discriminate H]. injection H as <-. eexists _, _; reflexivity. }
    destruct (beq cmd (key "lookup")); [|injection H as <-; eexists _, _; reflexivity].
    destruct rest as [|n [|? ?]]; [injection H as <-; eexists _, _; reflexivity| |injection H as <-; eexists _, _; reflexivity].
    destruct (usable host (cl_addr conf)) as [[]|]; cbn [bind negb] in H; [| |discriminate H]; [|injection H as <-; eexists _, _; reflexivity].
    destruct (keyLookup _ _ _) as [[? ?]|]; cbn [bind] in H; [|discriminate H]. injection H as <-. eexists _, _; reflexivity.
Qed.
(** Every line, but for the two that switch the time stamps, is answered by one
    line on the screen which is not empty and, if it reports an error, names
    it. *)
Theorem C84_always_told : forall (C : Crypto) host conf st line x e, cc_useTBs (rp_cc st) = true ->
  turn host conf st line x = Ok e ->
  (exists b t, ef_shown e = [(b, t)] /\ t <> [] /\ t <> key "[+] " /\ t <> key "[+] Error: ") \/
  (ef_shown e = [] /\ (Fields line = [key "enable"; key "timestamp"] \/ Fields line = [key "disable"; key "timestamp"])).
Proof.
  intros C host conf st line x e U H. destruct (turn_one _ _ _ _ _ _ H) as [(b & t & S)|X]; [left|right; exact X].
  exists b, t. split; [exact S|].
  destruct (turn_cases _ _ _ _ _ _ H) as [(_ & _ & Q)|[(n & k & cc' & s & F & _ & R & ->)|(n & cc' & s & F & _ & R & ->)]].
  - destruct (Q b t) as [[A B]|[->| ->]]; [rewrite S; left; reflexivity| | |]; [|split; [discriminate|]; split; discriminate..].
    split; [exact A|]. split; [exact (B [])|exact (B (key "Error: "))].
  - cbn [ef_shown] in S. injection S as <- <-. split; [discriminate|]. apply message_something.
    + intros ->. exact (proj1 (C57_never_silent C _ _ _ _ U) _ R).
    + intros e0 ->. eapply register_named; eauto.
  - cbn [ef_shown] in S. injection S as <- <-. split; [discriminate|]. apply message_something.
    + intros ->. exact (proj2 (C57_never_silent C _ _ _ [] U) _ R).
    + intros e0 ->. eapply lookup_named; eauto.
Qed.
Print Assumptions C84_always_told.

(** ** Whole sessions *)

Lemma handle_tbs {C : Crypto} cc t msg n k cc' err : HandleResponse cc t msg n k = Ok (cc', err) -> cc_useTBs cc' = cc_useTBs cc.
Proof. intro H. apply handle_state in H. tauto. Qed.
Lemma turn_tbs {C : Crypto} host conf st line x e : turn host conf st line x = Ok e -> cc_useTBs (rp_cc (ef_state e)) = cc_useTBs (rp_cc st).
Proof.
  intro H. destruct (turn_cases _ _ _ _ _ _ H) as [(_ & -> & _)|[(n & k & cc' & s & F & _ & R & ->)|(n & cc' & s & F & _ & R & ->)]]; [reflexivity| |].
  - cbn [ef_state rp_cc]. unfold register in R. destruct (answer_of x) as [j|]; [|injection R as <- _; reflexivity].
    destruct (UnmarshalResponse _ j) as [msg|]; cbn [bind] in R; [|discriminate R].
    destruct (HandleResponse _ _ _ _ _) as [[c1 err]|] eqn:HR; cbn [bind] in R; [|discriminate R]. injection R as <- _. eapply handle_tbs; eauto.
  - cbn [ef_state rp_cc]. unfold keyLookup in R. destruct (answer_of x) as [j|]; [|injection R as <- _; reflexivity].
    destruct (UnmarshalResponse _ j) as [msg|]; cbn [bind] in R; [|discriminate R].
    destruct (HandleResponse _ _ _ _ _) as [[c1 err]|] eqn:HR; cbn [bind] in R; [|discriminate R]. injection R as <- _. eapply handle_tbs; eauto.
Qed.
(** Whatever the user types and the network delivers, however long the session:
    what the screen announces was backed, when it was announced, by the bytes
    received for that line, checked against what the client had verified until
    then. *)
Theorem C84_screen_truth : forall (C : Crypto) host conf debug st0 l st sh se b text,
  repl_start conf debug = Ok st0 -> repl_run host conf st0 l = Ok (st, sh, se) -> good_news text -> In (b, text) sh ->
  exists l1 line s l2 st1 sh1 se1, l = l1 ++ (line, RBytes s) :: l2 /\
    repl_run host conf st0 l1 = Ok (st1, sh1, se1) /\ backed (rp_cc st1) line s text.
Proof.
  intros C host conf debug st0 l st sh se b text ST.
  assert (U : cc_useTBs (rp_cc st0) = true) by (injection ST as <-; reflexivity). clear ST.
  intros R G I. revert st0 U st sh se R I. induction l as [|[line x] l IH]; intros st0 U st sh se R I; cbn [repl_run] in R.
  { injection R as <- <- <-. destruct I. }
  destruct (turn host conf st0 line x) as [e|] eqn:T; cbn [bind] in R; [|discriminate R].
  assert (HERE : In (b, text) (ef_shown e) -> exists l1 line0 s l2 st1 sh1 se1, (line, x) :: l = l1 ++ (line0, RBytes s) :: l2 /\
    repl_run host conf st0 l1 = Ok (st1, sh1, se1) /\ backed (rp_cc st1) line0 s text).
  { intro J. destruct (shown_backed _ _ _ _ _ _ _ _ U G T J) as (s & -> & BK).
    exists [], line, s, l, st0, [], []. split; [reflexivity|]. split; [reflexivity|exact BK]. }
  destruct (ef_on e) eqn:ON.
  - destruct (repl_run host conf (ef_state e) l) as [[[st2 sh2] se2]|] eqn:R2; cbn [bind fst snd] in R; [|discriminate R].
    injection R as <- <- <-. apply in_app_or in I as [I|I]; [exact (HERE I)|].
    destruct (IH (ef_state e) ltac:(rewrite (turn_tbs _ _ _ _ _ _ T); exact U) _ _ _ R2 I) as (l1 & line1 & s & l2 & st1 & sh1 & se1 & -> & R1 & BK).
    exists ((line, x) :: l1), line1, s, l2, st1, (ef_shown e ++ sh1), (ef_sent e ++ se1).
    split; [reflexivity|]. split; [|exact BK]. cbn [repl_run]. rewrite T. cbn [bind]. rewrite ON, R1. reflexivity.
  - injection R as <- <- <-. exact (HERE I).
Qed.
Print Assumptions C84_screen_truth.

(** ** With an honest server, text by text *)

(** What happens: something at the server, or a line typed here; [r] is the
    entropy the server draws if it has to. *)
Inductive event := EServer (op : srv_op) | ELine (r line : bytes).

Section Session.
  Context {C : Crypto}.
  Variables (host : bytes -> bool) (p : permtable) (at_addr : bytes -> nat) (conf : ClientLoaded).
  (** What the client sends for a line; what comes back does not matter for
      this ([sent_first] below). *)
  Definition asked (st : repl) (line : bytes) : list (bytes * bytes) :=
    match turn host conf st line (RError []) with Ok e => ef_sent e | Panic => [] end.
  (** The server reads bytes and answers with bytes (application/serverbase.go
      :181-232, Server.v, Text.v). *)
  Definition serve (d : Directory) (r : option bytes) (a t : bytes) : result (Directory * reply) :=
    do (d', resp) <- srv_sem p (OMsg (at_addr a) (received t) r) d;
    Ok (d', match resp with Some y => RBytes (response_text y) | None => RError [] end).
  Definition session_step (d : Directory) (st : repl) (ev : event) : result (Directory * effect) :=
    match ev with
    | EServer op => do (d', _) <- srv_sem p op d; Ok (d', mkEffect st [] [] true)
    | ELine r line =>
        match asked st line with
        | (a, t) :: _ => do (d', x) <- serve d (Some r) a t; do e <- turn host conf st line x; Ok (d', e)
        | [] => do e <- turn host conf st line (RError []); Ok (d, e)
        end
    end.
  Fixpoint session (d : Directory) (st : repl) (l : list event) : result (Directory * repl * list shown) :=
    match l with
    | [] => Ok (d, st, [])
    | ev :: l' =>
        do (d', e) <- session_step d st ev;
        if ef_on e then do (y, out) <- session d' (ef_state e) l'; Ok (y, ef_shown e ++ out)
        else Ok (d', ef_state e, ef_shown e)
    end.

  (** The line says what the user means; nothing else is typed. *)
  Definition spelled (c : command) (ev : event) : Prop :=
    match c, ev with
    | KOther op, EServer op' => op' = op
    | KRegister r name k, ELine r' line => r' = r /\ Fields line = [key "register"; name; k]
    | KLookup name, ELine _ line => Fields line = [key "lookup"; name]
    | _, _ => False
    end.
  (** The texts that cross the connection for a command. *)
  Definition step_texts (d : Directory) (c : command) : list bytes :=
    match c with
    | KOther _ => []
    | KRegister r name k =>
        json_text (CreateRegistrationMsg name k) ::
        match srv_sem p (OMsg (at_addr (reg_address conf)) (Some (CreateRegistrationMsg name k)) (Some r)) d with
        | Ok (_, Some y) => [response_text y] | _ => [] end
    | KLookup name =>
        json_text (CreateKeyLookupMsg name) ::
        match srv_sem p (OMsg (at_addr (cl_addr conf)) (Some (CreateKeyLookupMsg name)) None) d with
        | Ok (_, Some y) => [response_text y] | _ => [] end
    end.
  Fixpoint texts (d : Directory) (cc : Checks) (l : list command) : list bytes :=
    match l with
    | [] => []
    | c :: l' =>
        step_texts d c ++
        match command_step p (at_addr (reg_address conf)) (at_addr (cl_addr conf)) d cc c with
        | Ok (d', cc', _) => texts d' cc' l'
        | Panic => []
        end
    end.

  Hypothesis UR : usable host (reg_address conf) = Ok true.
  Hypothesis UA : usable host (cl_addr conf) = Ok true.

  Lemma turn_register st line x name k : Fields line = [key "register"; name; k] ->
    turn host conf st line x = do (cc', s) <- register (rp_cc st) (answer_of x) name k;
      Ok (mkEffect (mkRepl (rp_debug st) cc') [(rp_debug st, plus (message (error_of x) s))]
            [(reg_address conf, json_text (CreateRegistrationMsg name k))] true).
  Proof.
    intro F. assert (T : turn host conf st line x = do_register host conf st x name k) by (unfold turn; rewrite F; reflexivity).
    rewrite T. unfold do_register. rewrite UR. reflexivity.
  Qed.
  Lemma turn_lookup st line x name : Fields line = [key "lookup"; name] ->
    turn host conf st line x = do (cc', s) <- keyLookup (rp_cc st) (answer_of x) name;
      Ok (mkEffect (mkRepl (rp_debug st) cc') [(rp_debug st, plus (message (error_of x) s))]
            [(cl_addr conf, json_text (CreateKeyLookupMsg name))] true).
  Proof.
    intro F. assert (T : turn host conf st line x = do_lookup host conf st x name) by (unfold turn; rewrite F; reflexivity).
    rewrite T. unfold do_lookup. rewrite UA. reflexivity.
  Qed.
  Definition fits (t : bytes) : Prop := length t <= 8192.
  Lemma fit_received j : json_utf8 j -> fits (json_text j) -> received (json_text j) = Some j.
  Proof. intros U L. unfold received. rewrite firstn_all2 by exact L. apply json_round_trip. exact U. Qed.

  Lemma session_command d st c ev d' cc' out : spelled c ev -> Forall fits (step_texts d c) ->
    command_step p (at_addr (reg_address conf)) (at_addr (cl_addr conf)) d (rp_cc st) c = Ok (d', cc', out) ->
    exists sent, session_step d st ev =
      Ok (d', mkEffect (mkRepl (rp_debug st) cc') (map (fun s => (rp_debug st, plus (message [] s))) out) sent true).
  Proof.
    intros SP FT H. destruct c as [op|r name k|name], ev as [op'|r' line]; cbn [spelled] in SP; try contradiction.
    - subst op'. cbn [command_step session_step] in *. destruct (srv_sem p op d) as [[d1 z]|]; cbn [bind] in *; [|discriminate H].
      injection H as <- <- <-. exists []. destruct st. reflexivity.
    - destruct SP as (-> & F). cbn [command_step step_texts] in *. unfold session_step, asked.
      rewrite (turn_register st line (RError []) name k F). cbn [answer_of register bind ef_sent]. unfold serve.
      pose proof (Forall_inv FT) as F1. pose proof (Forall_inv_tail FT) as F2. rewrite (fit_received (CreateRegistrationMsg name k) (request_utf8 RegistrationType (WRegistration name k false false) ltac:(discriminate)) F1).
      destruct (srv_sem p _ d) as [[d1 resp]|]; cbn [bind] in *; [|discriminate H].
      rewrite (turn_register _ _ _ name k F). destruct resp as [y|]; cbn [option_map answer_of error_of] in *.
      + pose proof (Forall_inv F2) as F3. unfold response_text in *. rewrite (fit_received (MarshalResponse y) (response_utf8 y) F3).
        destruct (register (rp_cc st) (Some (Some (MarshalResponse y))) name k) as [[c1 s]|]; cbn [bind] in *; [|discriminate H].
        injection H as <- <- <-. eexists. reflexivity.
      + cbn [register bind] in *. injection H as <- <- <-. eexists. reflexivity.
    - cbn [command_step step_texts] in *. unfold session_step, asked.
      rewrite (turn_lookup st line (RError []) name SP). cbn [answer_of keyLookup bind ef_sent]. unfold serve.
      pose proof (Forall_inv FT) as F1. pose proof (Forall_inv_tail FT) as F2. rewrite (fit_received (CreateKeyLookupMsg name) (request_utf8 KeyLookupType (WRegistration name [] false false) ltac:(discriminate)) F1).
      assert (NR : srv_sem p (OMsg (at_addr (cl_addr conf)) (Some (CreateKeyLookupMsg name)) (Some r')) d =
                   srv_sem p (OMsg (at_addr (cl_addr conf)) (Some (CreateKeyLookupMsg name)) None) d).
      { cbn [srv_sem]. unfold accept. cbn [obind]. rewrite keylookup_msg. destruct (checkRequestType _ _ _); reflexivity. }
      rewrite NR. clear NR. destruct (srv_sem p _ d) as [[d1 resp]|]; cbn [bind] in *; [|discriminate H].
      rewrite (turn_lookup _ _ _ name SP). destruct resp as [y|]; cbn [option_map answer_of error_of] in *.
      + pose proof (Forall_inv F2) as F3. unfold response_text in *. rewrite (fit_received (MarshalResponse y) (response_utf8 y) F3).
        destruct (keyLookup (rp_cc st) (Some (Some (MarshalResponse y))) name) as [[c1 s]|]; cbn [bind] in *; [|discriminate H].
        injection H as <- <- <-. eexists. reflexivity.
      + cbn [keyLookup bind] in *. injection H as <- <- <-. eexists. reflexivity.
  Qed.
  Lemma session_commands : forall cmds evs d st d' cc' out, Forall2 spelled cmds evs -> Forall fits (texts d (rp_cc st) cmds) ->
    command_run p (at_addr (reg_address conf)) (at_addr (cl_addr conf)) d (rp_cc st) cmds = Ok (d', cc', out) ->
    session d st evs = Ok (d', mkRepl (rp_debug st) cc', map (fun s => (rp_debug st, plus (message [] s))) out).
  Proof.
    intros cmds evs d st d' cc' out F2. revert d st d' cc' out.
    induction F2 as [|c ev cmds evs SP F2 IH]; intros d st d' cc' out FT H; cbn [command_run session texts] in *.
    - injection H as <- <- <-. destruct st. reflexivity.
    - destruct (command_step _ _ _ d (rp_cc st) c) as [[[d1 cc1] o1]|] eqn:E; cbn [bind fst snd] in H; [|discriminate H].
      apply Forall_app in FT as [FT1 FT2].
      destruct (session_command _ _ _ _ _ _ _ SP FT1 E) as (sent & ->). cbn [bind ef_on ef_state ef_shown].
      destruct (command_run _ _ _ d1 cc1 cmds) as [[[d2 cc2] o2]|] eqn:E2; cbn [bind] in H; [|discriminate H].
      injection H as <- <- <-. rewrite (IH d1 (mkRepl (rp_debug st) cc1) d2 cc2 o2 FT2 E2). cbn [bind rp_debug]. rewrite map_app. reflexivity.
  Qed.
End Session.

(** The request does not depend on the answer to it. *)
Lemma sent_first : forall (C : Crypto) host conf st line x e, turn host conf st line x = Ok e ->
  ef_sent e = asked host conf st line.
Proof.
  intros C host conf st line x e H. unfold asked.
  assert (TR : forall n k y, Fields line = [cmd_register; n; k] -> turn host conf st line y = do_register host conf st y n k).
  { intros n k y F. unfold turn. rewrite F. reflexivity. }
  assert (TL : forall n y, Fields line = [cmd_lookup; n] -> turn host conf st line y = do_lookup host conf st y n).
  { intros n y F. unfold turn. rewrite F. reflexivity. }
  destruct (turn_cases _ _ _ _ _ _ H) as [(E & _)|[(n & k & cc' & s & F & U & R & ->)|(n & cc' & s & F & U & R & ->)]].
  - rewrite E. destruct (turn host conf st line (RError [])) as [e0|] eqn:T; [|reflexivity].
    destruct (turn_cases _ _ _ _ _ _ T) as [(-> & _)|[(n & k & cc' & s & F & U & _ & _)|(n & cc' & s & F & U & _ & _)]]; [reflexivity| |]; exfalso.
    + rewrite (TR n k x F) in H. unfold do_register in H. rewrite U in H. cbn [bind negb] in H.
      destruct (register (rp_cc st) (answer_of x) n k) as [[? ?]|]; cbn [bind] in H; [|discriminate H].
      injection H as <-. discriminate E.
    + rewrite (TL n x F) in H. unfold do_lookup in H. rewrite U in H. cbn [bind negb] in H.
      destruct (keyLookup (rp_cc st) (answer_of x) n) as [[? ?]|]; cbn [bind] in H; [|discriminate H].
      injection H as <-. discriminate E.
  - rewrite (TR n k _ F). unfold do_register. rewrite U. reflexivity.
  - rewrite (TL n _ F). unfold do_lookup. rewrite U. reflexivity.
Qed.

(** The whole story at the level of bytes: the user types commands (in words
    separated by any blanks), the server is honest whatever its other users do,
    no message exceeds 8192 bytes, no epoch is missed.  Then the screen shows
    exactly what happened to the names, in the texts of the program, each with
    a time stamp if the client was started with -d. *)
Theorem C84_honest_server : forall (C : Crypto), CryptoOk C ->
  forall host p at_addr conf debug dl0 vk sk size r1 r2 d0 st0 cmds evs,
  Directory_New dl0 vk sk size true r1 r2 = Ok d0 ->
  cl_str conf = LatestSTR d0 -> cl_key conf = sign_pub sk -> repl_start conf debug = Ok st0 ->
  usable host (cl_addr conf) = Ok true -> usable host (reg_address conf) = Ok true ->
  p (at_addr (reg_address conf)) RegistrationType = true -> p (at_addr (cl_addr conf)) KeyLookupType = true ->
  Forall2 spelled cmds evs ->
  no_missed_epoch 0 cmds -> Forall wf_command cmds -> few (calls p cmds) -> deadlines_ok dl0 (calls p cmds) ->
  vrf_good vk (flat_map looked_up cmds ++ names_of (calls p cmds)) ->
  Forall (fun t => length t <= 8192) (texts p at_addr conf d0 (rp_cc st0) cmds) ->
  exists d st, session host p at_addr conf d0 st0 evs =
    Ok (d, st, map (fun s => (debug, key "[+] " ++ message [] s)) (expected p [] cmds)).
Proof.
  intros C OK host p at_addr conf debug dl0 vk sk size r1 r2 d0 st0 cmds evs N0 CS CK ST UA UR PR PL SP PM W F DL VS FT.
  unfold repl_start in ST. destruct (Client_New (cl_str conf) true (cl_key conf)) as [cc0|] eqn:CN; cbn [bind] in ST; [|discriminate ST].
  injection ST as <-. rewrite CS, CK in CN.
  destruct (C57_honest_server C OK dl0 vk sk size r1 r2 d0 cc0 p (at_addr (reg_address conf)) (at_addr (cl_addr conf)) cmds N0 CN PR PL PM W F DL VS) as (d & cc & R).
  exists d, (mkRepl debug cc). exact (session_commands host p at_addr conf UR UA cmds evs d0 (mkRepl debug cc0) d cc _ SP FT R).
Qed.
Print Assumptions C84_honest_server.

(** ** Time stamps *)
Theorem C84_timestamps : forall (C : Crypto) host conf st line x e, turn host conf st line x = Ok e ->
  (rp_debug (ef_state e) =
     if list_eq_dec (list_eq_dec Byte.byte_eq_dec) (Fields line) [key "enable"; key "timestamp"] then true
     else if list_eq_dec (list_eq_dec Byte.byte_eq_dec) (Fields line) [key "disable"; key "timestamp"] then false
     else rp_debug st) /\
  (forall b t, In (b, t) (ef_shown e) -> b = rp_debug st \/ (b = false /\ t = help_text)).
Proof.
  intros C host conf st line x e H. unfold turn, says, do_register, do_lookup in H.
  assert (ONE : forall b t b' t', In (b, t) [(b', t')] -> b' = rp_debug st -> b = rp_debug st \/ (b = false /\ t = help_text)).
  { intros b t b' t' [E|[]] ->. injection E as <- <-. auto. }
  assert (OTHER : forall cmd rest, ~ (cmd = key "enable" \/ cmd = key "disable") \/ rest <> [key "timestamp"] -> forall b,
    b = (if list_eq_dec (list_eq_dec Byte.byte_eq_dec) (cmd :: rest) [key "enable"; key "timestamp"] then true
     else if list_eq_dec (list_eq_dec Byte.byte_eq_dec) (cmd :: rest) [key "disable"; key "timestamp"] then false else b)).
  { intros cmd rest N b. destruct (list_eq_dec _ _ _) as [E|_]; [injection E as E1 E2; tauto|].
    destruct (list_eq_dec _ _ _) as [E|_]; [injection E as E1 E2; tauto|reflexivity]. }
  destruct (Fields line) as [|cmd rest].
  { injection H as <-. cbn [ef_state ef_shown]. split; [|intros b t I; apply (ONE _ _ _ _ I eq_refl)].
    destruct (list_eq_dec _ _ _) as [E|_]; [discriminate E|]. destruct (list_eq_dec _ _ _) as [E|_]; [discriminate E|reflexivity]. }
  destruct (beq_spec cmd (key "enable")) as [->|N1]; [|destruct (beq_spec cmd (key "disable")) as [->|N2]].
  - change (beq (key "enable") (key "exit") || beq (key "enable") (key "q")) with false in H. change (beq (key "enable") (key "help")) with false in H.
    cbn [orb] in H. destruct rest as [|what [|? ?]].
    + injection H as <-. cbn [ef_state ef_shown]. split; [apply OTHER; right; discriminate|intros b t I; apply (ONE _ _ _ _ I eq_refl)].
    + destruct (beq_spec what (key "timestamp")) as [E|E]; injection H as <-; cbn [ef_state ef_shown rp_debug].
      * rewrite E. split; [reflexivity|]. intros b t [].
      * split; [apply OTHER; right; intro X; injection X as X; exact (E X)|intros b t I; apply (ONE _ _ _ _ I eq_refl)].
    + injection H as <-. cbn [ef_state ef_shown]. split; [apply OTHER; right; discriminate|intros b t I; apply (ONE _ _ _ _ I eq_refl)].
  - change (beq (key "disable") (key "exit") || beq (key "disable") (key "q")) with false in H. change (beq (key "disable") (key "help")) with false in H.
    cbn [orb] in H. destruct rest as [|what [|? ?]].
    + injection H as <-. cbn [ef_state ef_shown]. split; [apply OTHER; right; discriminate|intros b t I; apply (ONE _ _ _ _ I eq_refl)].
    + destruct (beq_spec what (key "timestamp")) as [E|E]; injection H as <-; cbn [ef_state ef_shown rp_debug].
      * rewrite E. split; [reflexivity|]. intros b t [].
      * split; [apply OTHER; right; intro X; injection X as X; exact (E X)|intros b t I; apply (ONE _ _ _ _ I eq_refl)].
    + injection H as <-. cbn [ef_state ef_shown]. split; [apply OTHER; right; discriminate|intros b t I; apply (ONE _ _ _ _ I eq_refl)].
  - assert (OT : forall b, b = (if list_eq_dec (list_eq_dec Byte.byte_eq_dec) (cmd :: rest) [key "enable"; key "timestamp"] then true
       else if list_eq_dec (list_eq_dec Byte.byte_eq_dec) (cmd :: rest) [key "disable"; key "timestamp"] then false else b)) by (apply OTHER; left; tauto).
    cbn [orb] in H. destruct (_ || _); [injection H as <-; split; [apply OT|intros b t I; apply (ONE _ _ _ _ I eq_refl)]|].
    destruct (beq cmd (key "help")).
    { injection H as <-. split; [apply OT|]. intros b t [E|[]]. injection E as <- <-. auto. }
    destruct (beq cmd (key "register")).
    { destruct rest as [|n [|k [|? ?]]]; try (injection H as <-; split; [apply OT|intros b t I; apply (ONE _ _ _ _ I eq_refl)]).
      destruct (usable host (reg_address conf)) as [[]|]; cbn [bind negb] in H; [| |discriminate H];
        [|injection H as <-; split; [apply OT|intros b t I; apply (ONE _ _ _ _ I eq_refl)]].
      destruct (register _ _ _ _) as [[? ?]|]; cbn [bind] in H; [|discriminate H].
      injection H as <-; split; [apply OT|intros b t I; apply (ONE _ _ _ _ I eq_refl)]. }
    destruct (beq cmd (key "lookup")); [|injection H as <-; split; [apply OT|intros b t I; apply (ONE _ _ _ _ I eq_refl)]].
    destruct rest as [|n [|? ?]]; try (injection H as <-; split; [apply OT|intros b t I; apply (ONE _ _ _ _ I eq_refl)]).
    destruct (usable host (cl_addr conf)) as [[]|]; cbn [bind negb] in H; [| |discriminate H];
      [|injection H as <-; split; [apply OT|intros b t I; apply (ONE _ _ _ _ I eq_refl)]].
    destruct (keyLookup _ _ _) as [[? ?]|]; cbn [bind] in H; [|discriminate H].
    injection H as <-; split; [apply OT|intros b t I; apply (ONE _ _ _ _ I eq_refl)].
Qed.
Print Assumptions C84_timestamps.

(** ** Addresses *)

(** What is usable: the default is, if net/url takes the host; *)
Theorem C84_default_address : forall (C : Crypto) host file, host (key "127.0.0.1:3000") = true ->
  usable host (cd_addr (client_default file)) = Ok true /\ usable host (cd_reg (client_default file)) = Ok true.
Proof.
  intros C host file H. unfold usable.
  assert (E : url_scheme host (key "tcp://127.0.0.1:3000") = Some (key "tcp")).
  { vm_compute in H. vm_compute. rewrite H. reflexivity. }
  split; cbn [client_default cd_addr cd_reg]; rewrite E; reflexivity.
Qed.
Print Assumptions C84_default_address.
(** an address without "tcp:" or "unix:" in front is reported if it happens to
    be a URL of some other kind ... *)
Theorem C84_other_scheme : forall (C : Crypto) host conf st line x name, cl_addr conf = key "localhost:3000" ->
  Fields line = [key "lookup"; name] ->
  turn host conf st line x = Ok (mkEffect st [(rp_debug st, key "[+] Invalid config!")] [] true).
Proof.
  intros C host conf st line x name A F.
  assert (T : turn host conf st line x = do_lookup host conf st x name) by (unfold turn; rewrite F; reflexivity).
  rewrite T. unfold do_lookup, usable. rewrite A.
  assert (E : url_scheme host (key "localhost:3000") = Some (key "localhost")) by (vm_compute; reflexivity).
  rewrite E. reflexivity.
Qed.
Print Assumptions C84_other_scheme.
(** ... but if it is none, the client crashes at the first command: "a wrong
    configuration is reported" fails for 127.0.0.1:3000. *)
Theorem C84_bad_address_reported_refuted : forall (C : Crypto) host conf st line x, cl_addr conf = key "127.0.0.1:3000" -> cl_reg conf = [] ->
  (forall name, Fields line = [key "lookup"; name] -> turn host conf st line x = Panic) /\
  (forall name k, Fields line = [key "register"; name; k] -> turn host conf st line x = Panic).
Proof.
  intros C host conf st line x A R.
  assert (E : url_scheme host (key "127.0.0.1:3000") = None) by (vm_compute; reflexivity).
  split; [intros name F|intros name k F].
  - assert (T : turn host conf st line x = do_lookup host conf st x name) by (unfold turn; rewrite F; reflexivity).
    rewrite T. unfold do_lookup, usable. rewrite A, E. reflexivity.
  - assert (T : turn host conf st line x = do_register host conf st x name k) by (unfold turn; rewrite F; reflexivity).
    rewrite T. unfold do_register, usable, reg_address. rewrite R. cbn [empty]. rewrite A, E. reflexivity.
Qed.
Print Assumptions C84_bad_address_reported_refuted.

(** ** Examples *)
Lemma blank_b g : utf8 g -> forallb is_space (runes g) = true -> blank g.
Proof. intros U B. split; [exact U|]. apply Forall_forall. rewrite forallb_forall in B. exact B. Qed.
Lemma word_b w : utf8 w -> w <> [] -> forallb (fun r => negb (is_space r)) (runes w) = true -> word w.
Proof.
  intros U N B. split; [exact U|]. split; [exact N|]. apply Forall_forall. rewrite forallb_forall in B.
  intros r I. apply negb_true_iff. exact (B r I).
Qed.
(** Blanks of all kinds, letters beyond ASCII, stray bytes. *)
Example C84_words_example :
  Fields (key "  register" ++ [x09] ++ key "al" ++ [xc3; xa9] ++ [xe3; x80; x80] ++ key "k1 ") = [key "register"; key "al" ++ [xc3; xa9]; key "k1"] /\
  Fields (key "lookup a" ++ [xff; xe2; x80; x28]) = [key "lookup"; key "a" ++ [xff; xe2; x80; x28]] /\
  Fields [x20; xc2; xa0; x0d] = [] /\
  well_typed [x20] [(key "lookup", [xc2; x85]); (key "al" ++ [xc3; xa9], [])].
Proof.
  split; [vm_compute; reflexivity|]. split; [vm_compute; reflexivity|]. split; [vm_compute; reflexivity|].
  assert (B1 : blank [x20]) by (apply blank_b; [apply u_1; [reflexivity|constructor]|vm_compute; reflexivity]).
  assert (B2 : blank [xc2; x85]) by (apply blank_b; [apply u_2; [reflexivity|reflexivity|constructor]|vm_compute; reflexivity]).
  assert (B3 : blank []) by (apply blank_b; [constructor|vm_compute; reflexivity]).
  assert (W1 : word (key "lookup")) by (apply word_b; [apply key_utf8; reflexivity|discriminate|vm_compute; reflexivity]).
  assert (W2 : word (key "al" ++ [xc3; xa9])).
  { apply word_b; [|discriminate|vm_compute; reflexivity]. change (key "al" ++ [xc3; xa9]) with [x61; x6c; xc3; xa9].
    apply u_1; [reflexivity|]. apply u_1; [reflexivity|]. apply u_2; [reflexivity|reflexivity|constructor]. }
  cbn [well_typed]. split; [exact B1|]. split; [exact W1|]. split; [discriminate|]. split; [exact B2|]. split; [exact W2|].
  split; [intro N; destruct N; reflexivity|exact B3].
Qed.

(** A whole session with an honest server meets the hypotheses of
    [C84_honest_server]; its screen. *)
Definition repl_host (h : bytes) : bool := beq h (key "127.0.0.1:3000").
Definition repl_at (a : bytes) : nat := if beq a (key "unix:///tmp/coniks.sock") then 0 else 1.
Definition repl_dir : result Directory := @Directory_New ToyCrypto 5 [x11] [x12] 10 true (Some [x01]) (Some [x02]).
Definition repl_conf : ClientLoaded :=
  mkClientLoaded [] [] (@sign_pub ToyCrypto [x12])
    (match repl_dir with Ok d => LatestSTR d | Panic => mkDir None None end)
    (key "unix:///tmp/coniks.sock") (key "tcp://127.0.0.1:3000").
Definition repl_cmds : list command :=
  [KLookup [x61]; KRegister [x01] [x61] [x31]; KOther OTick; KRegister [x02] [x61] [x31]; KRegister [x03] [x61] [x32]; KLookup [x61]].
Definition repl_events : list event :=
  [ELine [] (key "lookup a"); ELine [x01] (key "register a  1 "); EServer OTick; ELine [x02] (key " register a 1");
   ELine [x03] (key "register" ++ [x09] ++ key "a 2"); ELine [] (key "lookup a")].
Lemma repl_spelled : Forall2 spelled repl_cmds repl_events.
Proof. repeat (apply Forall2_cons; [first [reflexivity | split; vm_compute; reflexivity | vm_compute; reflexivity]|]). constructor. Qed.
Lemma repl_fits : match repl_dir with
  | Ok d => match repl_start repl_conf true with
            | Ok st => forallb (fun t => length t <=? 8192) (@texts ToyCrypto perms_ex repl_at repl_conf d (rp_cc st) repl_cmds)
            | Panic => false end
  | Panic => false end = true.
Proof. vm_compute. reflexivity. Qed.
Lemma repl_screen : match repl_dir with
  | Ok d => match repl_start repl_conf true with
            | Ok st => match @session ToyCrypto repl_host perms_ex repl_at repl_conf d st repl_events with
                       | Ok (_, _, sh) => sh
                       | Panic => [] end
            | Panic => [] end
  | Panic => [] end =
  [(true, key "[+] Name isn't registered."); (true, key "[+] Succesfully registered name: a");
   (true, key "[+] Name is already registered.");
   (true, key "[+] Are you trying to update your binding? Unfortunately, KeyChange isn't supported yet.");
   (true, key "[+] Found! Key bound to name is: []")].
Proof. vm_compute. reflexivity. Qed.
Example C84_session_example :
  usable repl_host (cl_addr repl_conf) = Ok true /\ usable repl_host (reg_address repl_conf) = Ok true /\
  perms_ex (repl_at (reg_address repl_conf)) RegistrationType = true /\ perms_ex (repl_at (cl_addr repl_conf)) KeyLookupType = true /\
  no_missed_epoch 0 repl_cmds /\ Forall wf_command repl_cmds /\ few (calls perms_ex repl_cmds) /\
  deadlines_ok 5 (calls perms_ex repl_cmds) /\
  @vrf_good ToyCrypto [x11] (flat_map looked_up repl_cmds ++ names_of (calls perms_ex repl_cmds)).
Proof.
  split; [vm_compute; reflexivity|]. split; [vm_compute; reflexivity|]. split; [vm_compute; reflexivity|]. split; [vm_compute; reflexivity|].
  split; [cbn; auto|]. split.
  { repeat (apply Forall_cons || apply Forall_nil); try exact I; repeat split; try discriminate; apply u_1; try reflexivity; constructor. }
  split; [cbv; reflexivity|]. split.
  { split; [reflexivity|]. intros t H. cbn in H. repeat (destruct H as [H|H]; [try discriminate H; injection H as <-; reflexivity|]). destruct H. }
  split; [|intros k _; apply ToyCrypto_vrf].
  intros a b Ia Ib _. 
  assert (K : forall c, In c (flat_map looked_up repl_cmds ++ names_of (calls perms_ex repl_cmds)) -> c = [x61]).
  { intros c H. cbn in H. repeat (destruct H as [H|H]; [subst; reflexivity|]). destruct H. }
  rewrite (K a Ia), (K b Ib). reflexivity.
Qed.
