(** C98: an honest server that serves many clients at the same time is never accused by
    one of them (Conc.v, Prop_Together.v, Prop_Client.v). *)
From Coq Require Import List NArith ZArith Lia Bool Arith.
From Verif Require Import Base Utils Crypto Tree TreeSpec STR PAD PADSpec PADMain Protocol Directory DirSpec DirFacts DirMain Prop_Directory
  Auditor Client ClientSpec ClientFacts JointFacts
  Path Json JsonText Wire Text Conc Server ServerFacts ServerWire Prop_Server Prop_Text Prop_Fit Prop_Together.
Import ListNotations.
Local Open Scope list_scope.
Local Open Scope nat_scope.
Notation length := List.length.

(** ** One client among many
    Specification only: no lines of their own in /repo (the calls are those of
    cli/coniksclient/internal/cmd/run.go 115-225 and protocol/client/consistencychecks.go 102-124). *)
(** What the user of our client wants: a key registered for a name, or the key of a name
    looked up (and compared with a known one, if there is one). *)
Inductive wish := WantRegister (name key : bytes) | WantLook (name : bytes) (known : option bytes).
Definition wanted_name (w : wish) : bytes := match w with WantRegister n _ | WantLook n _ => n end.
Definition wanted_key (w : wish) : option bytes := match w with WantRegister _ k => Some k | WantLook _ k => k end.
Definition wanted_type (w : wish) : Z := match w with WantRegister _ _ => RegistrationType | WantLook _ _ => KeyLookupType end.
(** The request was sent by the thread [i] of the run and got the answer [resp]. The
    server had entropy for a registration. *)
Definition visit : Type := nat * wish * Response.
Definition took_place (p : permtable) (tr : list (event (option Response) srv_op)) (v : visit) : Prop :=
  let '(i, w, resp) := v in exists op, In (EInv i op) tr /\ In (ERes i (Some resp)) tr /\
    match w with
    | WantRegister n k => (exists r, registers p op n k (Some r)) /\ n <> [] /\ k <> []
    | WantLook n _ => looks_up p op n /\ n <> []
    end.
(** The client waits for an answer before it sends the next request. *)
Fixpoint in_turn (tr : list (event (option Response) srv_op)) (vs : list visit) : Prop :=
  match vs with
  | x :: ((y :: _) as vs') => (exists op, earlier (ERes (fst (fst x)) (Some (snd x))) (EInv (fst (fst y)) op) tr) /\ in_turn tr vs'
  | _ => True
  end.
(** The roots in its answers skip no epoch ([e]: the epoch of the root it has). *)
Fixpoint keeps_up (e : N) (vs : list visit) : Prop :=
  match vs with
  | [] => True
  | v :: vs' => exists str e', comes_with (snd v) str /\ epoch_of str = Some e' /\ (e' <= e + 1)%N /\ keeps_up e' vs'
  end.

Section Session.
  Context {C : Crypto}.
  (** What the client does: each answer is handed to its consistency checks. *)
  Fixpoint session (cc : Checks) (vs : list visit) : result (Checks * list (option ErrorCode)) :=
    match vs with
    | [] => Ok (cc, [])
    | (_, w, resp) :: vs' =>
        do (cc', err) <- HandleResponse cc (wanted_type w) resp (wanted_name w) (wanted_key w);
        do (cc'', errs) <- session cc' vs';
        Ok (cc'', err :: errs)
    end.
End Session.
(** The answer names the key [k]. *)
Definition names_key (resp : Response) (k : bytes) : Prop := promises resp k \/ proves resp k.
(** The only thing ever reported is that the name belongs to another key, and only when
    the answer says so. *)
Definition right_verdict (v : visit) (err : option ErrorCode) : Prop :=
  let '(_, w, resp) := v in
  match wanted_key w with
  | None => err = None
  | Some k => (err = None /\ forall k0, names_key resp k0 -> k0 = k) \/
              (err = Some CheckBindingsDiffer /\ exists k0, names_key resp k0 /\ k0 <> k)
  end.

Lemma names_key_fun resp k k' : names_key resp k -> names_key resp k' -> k = k'.
Proof.
  intros [(ap & st & tb & E1 & E2)|(ap & st & lf & E1 & E2 & E3)] [(ap' & st' & tb' & F1 & F2)|(ap' & st' & lf' & F1 & F2 & F3)].
  - rewrite E1 in F1. injection F1 as _ _ ->. rewrite <- E2. exact F2.
  - rewrite E1 in F1. discriminate F1.
  - rewrite E1 in F1. discriminate F1.
  - rewrite E1 in F1. injection F1 as -> _. rewrite E2 in F2. injection F2 as ->. rewrite E3 in F3. injection F3 as ->. reflexivity.
Qed.

Section Accused.
  Context {C : Crypto} (OK : CryptoOk C).
  Variables (dl0 : N) (vk sk : bytes) (size : nat) (r1 r2 : option bytes) (p : permtable) (torn : Directory -> list Directory) (d0 : Directory).
  Variables (tr : list (event (option Response) srv_op)) (s : state Directory (option Response) srv_op).
  Hypothesis ND : Directory_New dl0 vk sk size true r1 r2 = Ok d0.
  Hypothesis RU : server_runs p torn d0 tr s.
  Hypothesis TK : (N.of_nat (ticks tr) < 2 ^ 64 - 1)%N.
  Hypothesis VG : vrf_good vk (names_in tr).
  Notation jinv := (joint_inv dl0 vk sk size r1 r2).

  (** Nothing but other people's operations. *)
  Lemma others_run l : forall d cc, joint_run d cc (map JOther l) = do d' <- dir_run d l; Ok (d', cc, []).
  Proof.
    induction l as [|op l IH]; intros d cc; [reflexivity|]. cbn [map joint_run joint_step dir_run].
    destruct (dir_step d op) as [d1|]; cbn [bind fst snd]; [|reflexivity]. rewrite IH. destruct (dir_run d1 l); reflexivity.
  Qed.
  Lemma others_ops l : server_ops (map JOther l) = l.
  Proof. induction l as [|op l IH]; [reflexivity|]. cbn [map]. unfold server_ops in *. cbn [flat_map server_op app]. rewrite IH. reflexivity. Qed.
  Lemma others_names l : flat_map contact_names (map JOther l) = [].
  Proof. induction l as [|op l IH]; [reflexivity|]. exact IH. Qed.
  Lemma others_wf l : Forall wf_contact (map JOther l).
  Proof. induction l; constructor; [exact Logic.I|assumption]. Qed.
  Lemma others_prompt l : forall lag, lag + dupdates l <= 1 -> prompt lag (map JOther l).
  Proof.
    induction l as [|[r n k| |t] l IH]; intros lag H; cbn [map prompt dupdates] in *; [exact Logic.I| | |].
    - apply IH. exact H.
    - split; [lia|]. apply IH. lia.
    - apply IH. exact H.
  Qed.
  Lemma gap h l d d' cc : jinv h d cc 0 -> few (h ++ l) -> vrf_good vk (names_of (h ++ l)) -> dupdates l <= 1 -> dir_run d l = Ok d' ->
    exists lag, jinv (h ++ l) d' cc lag.
  Proof.
    intros J F V D R. destruct (joint_run_inv OK dl0 vk sk size r1 r2 (map JOther l) h d cc 0 J) as (d1 & cc1 & lag & E & J1 & _).
    - rewrite others_ops. exact F.
    - rewrite others_ops, others_names. exact V.
    - apply others_wf.
    - apply others_prompt. exact D.
    - rewrite others_run, R in E. cbn [bind] in E. injection E as <- <- _. rewrite others_ops in J1. exists lag. exact J1.
  Qed.

  Variable lin : list (nat * srv_op * option Response).
  Hypothesis ORD : order p d0 tr lin.

  (** One answer, at its place in the order. *)
  Lemma one_visit c i op resp e w d cc : lin = c ++ (i, op, Some resp) :: e ->
    match w with
    | WantRegister n k => (exists r, registers p op n k (Some r)) /\ n <> [] /\ k <> []
    | WantLook n _ => looks_up p op n /\ n <> []
    end ->
    (exists lag, jinv (calls_of p c) d cc lag) ->
    seq_exec (srv_sem p) d0 c d -> (exists str, comes_with resp str /\ str = LatestSTR d) /\
    exists d' cc' err, srv_sem p op d = Ok (d', Some resp) /\ HandleResponse cc (wanted_type w) resp (wanted_name w) (wanted_key w) = Ok (cc', err) /\
      jinv (calls_of p (c ++ [(i, op, Some resp)])) d' cc' 0 /\ right_verdict (i, w, resp) err /\ LatestSTR d' = LatestSTR d.
  Proof.
    intros E W (lag & J) SE.
    destruct (directory_at dl0 vk sk size r1 r2 p d0 tr ND TK VG lin ORD c i op (Some resp) e E) as (dd & d' & B & F & S & V).
    assert (dd = d) as ->.
    { destruct B as (d1 & N1 & R1). rewrite ND in N1. injection N1 as <-. pose proof (seq_calls p d0 c d SE) as R2. rewrite R1 in R2. injection R2 as ->. reflexivity. }
    assert (L : In (i, op, Some resp) lin) by (rewrite E; apply in_or_app; right; left; reflexivity).
    destruct w as [n k|n known]; cbn [wanted_type wanted_name wanted_key].
    - destruct W as ((r & RG) & NN & NK).
      assert (IN : In n (names_in tr)) by exact (named p d0 tr lin ORD n op i _ L (or_introl (ex_intro _ k (ex_intro _ (Some r) RG)))).
      destruct (reg_cases OK dl0 vk sk size r1 r2 p (calls_of p c) d op n k (Some r) d' (Some resp) B F (V n IN) RG S) as (resp' & EA & X). injection EA as <-.
      assert (NIL : is_nil n || is_nil k = false) by (destruct n, k; try reflexivity; contradiction). rewrite NIL in X.
      destruct RG as (addr & msg & u & v & Eo & P & Q).
      assert (DC : dir_calls p op = [DRegister (Some r) n k]) by (apply registers_calls; exists addr, msg, u, v; split; [exact Eo|split; assumption]).
      assert (SR : Register d (Some r) n k = Ok (d', resp)).
      { rewrite Eo in S. cbn [srv_sem] in S. unfold accept in S. rewrite Q in S. unfold checkRequestType in S. cbn [q_type] in S. rewrite P in S.
        unfold HandleRequests in S. cbn [q_type q_body] in S. change (Z.eqb RegistrationType RegistrationType) with true in S. cbv iota in S.
        destruct (Register d (Some r) n k) as [[d1 x]|]; cbn [bind] in S; [|discriminate S]. injection S as <- <-. reflexivity. }
      destruct (joint_step_inv OK dl0 vk sk size r1 r2 (calls_of p c) d cc lag (JRegister r n k) J) as (d1 & cc1 & JS & J1).
      + cbn [server_op]. unfold few in *. rewrite dupdates_app. cbn [dupdates]. lia.
      + cbn [contact_names server_op app]. apply (vrf_good_incl vk _ _) with (2 := V n IN). intros a Ia. rewrite names_app in Ia. apply in_app_or in Ia as [Ia|Ia]; [right; exact Ia|].
        left. cbn [names_of flat_map op_names app] in Ia. destruct Ia as [Ia|[]]. exact Ia.
      + split; assumption.
      + exact Logic.I.
      + cbn [joint_step] in JS. rewrite SR in JS. cbn [bind] in JS. destruct (HandleResponse cc RegistrationType resp n (Some k)) as [[cc2 err]|]; cbn [bind] in JS; [|discriminate JS].
        injection JS as <- <- Eerr. cbn [is_contact server_op] in J1.
        assert (LS : LatestSTR d' = LatestSTR d).
        { destruct J as [_ _ _ _ _]. destruct (reg (calls_of p c) n) as [k0|] eqn:R0.
          - destruct (C24_register C OK dl0 vk sk size r1 r2 (calls_of p c) d (Some r) n k B F (V n IN)) as (dx & rx & Ex & Y). rewrite SR in Ex. injection Ex as <- <-.
            rewrite NIL in Y. destruct Y as (_ & _ & Y2 & Y3). destruct (visible (calls_of p c) n) as [k1|] eqn:VI.
            + destruct (Y3 k1 eq_refl) as (-> & _). reflexivity.
            + destruct (Y2 k0 R0 eq_refl) as (-> & _). reflexivity.
          - destruct X as (_ & _ & CW). destruct (C24_register C OK dl0 vk sk size r1 r2 (calls_of p c) d (Some r) n k B F (V n IN)) as (dx & rx & Ex & Y). rewrite SR in Ex. injection Ex as <- <-.
            clear - SR. unfold Register in SR. revert SR. destruct (is_nil n || is_nil k); [intro H; injection H as <- _; reflexivity|].
            destruct (Lookup (dr_pad d) n) as [[ap|]|]; cbn [bind]; [|intro H; injection H as <- _; reflexivity|discriminate].
            destruct (leaf_matches ap) as [[|]|]; cbn [bind]; [intro H; injection H as <- _; reflexivity| |discriminate].
            destruct (if dr_useTBs d then map_get beq n (dr_tbs d) else None); [intro H; injection H as <- _; reflexivity|].
            unfold PAD_Set. destruct (Set_ _ _ _ _ _) as [[t|]|]; cbn [bind option_map]; [intro H; injection H as <- _; reflexivity|intro H; injection H as <- _; reflexivity|discriminate]. }
        split.
        { destruct (reg (calls_of p c) n) as [k0|]; [destruct X as (_ & _ & X)|destruct X as (_ & _ & X)]; exists (LatestSTR d); split; auto. }
        exists d', cc2, err. split; [exact S|]. split; [reflexivity|]. split; [rewrite calls_snoc; cbn [fst snd]; rewrite DC; exact J1|]. split; [|exact LS].
        cbn [right_verdict wanted_key]. subst err.
        destruct (reg (calls_of p c) n) as [k0|].
        * destruct X as (_ & NM & _). destruct (beq_spec k0 k) as [->|NE].
          -- left. split; [reflexivity|]. intros k1 H. exact (names_key_fun resp k1 k H NM).
          -- right. split; [reflexivity|]. exists k0. split; [exact NM|exact NE].
        * destruct X as (_ & NM & _). left. split; [reflexivity|]. intros k1 H. exact (names_key_fun resp k1 k H (or_introl NM)).
    - destruct W as (LU & NN).
      assert (IN : In n (names_in tr)) by exact (named p d0 tr lin ORD n op i _ L (or_intror LU)).
      destruct (look_cases OK dl0 vk sk size r1 r2 p (calls_of p c) d op n d' (Some resp) B F (V n IN) NN LU S) as (resp' & EA & CW & X). injection EA as <-.
      destruct LU as (addr & msg & r & Eo & P & Q).
      assert (DC : dir_calls p op = []).
      { rewrite Eo. cbn [dir_calls]. unfold accept. rewrite Q. unfold checkRequestType. cbn [q_type]. rewrite P. reflexivity. }
      assert (SR : KeyLookup d n = Ok resp /\ d' = d).
      { rewrite Eo in S. cbn [srv_sem] in S. unfold accept in S. rewrite Q in S. unfold checkRequestType in S. cbn [q_type] in S. rewrite P in S.
        unfold HandleRequests in S. cbn [q_type q_body] in S. change (Z.eqb KeyLookupType RegistrationType) with false in S.
        change (Z.eqb KeyLookupType KeyLookupType) with true in S. cbv iota in S.
        destruct (KeyLookup d n) as [x|]; cbn [bind] in S; [|discriminate S]. injection S as <- <-. split; reflexivity. }
      destruct SR as (SR & ->).
      destruct (joint_step_inv OK dl0 vk sk size r1 r2 (calls_of p c) d cc lag (JLookup n known) J) as (d1 & cc1 & JS & J1).
      + cbn [server_op]. rewrite app_nil_r. exact F.
      + cbn [contact_names server_op app]. rewrite app_nil_r. exact (V n IN).
      + exact NN.
      + exact Logic.I.
      + cbn [joint_step] in JS. rewrite SR in JS. cbn [bind] in JS. destruct (HandleResponse cc KeyLookupType resp n known) as [[cc2 err]|]; cbn [bind] in JS; [|discriminate JS].
        injection JS as <- <- Eerr. cbn [is_contact server_op] in J1. rewrite app_nil_r in J1.
        split; [exists (LatestSTR d); split; [exact CW|reflexivity]|].
        exists d, cc2, err. split; [exact S|]. split; [reflexivity|]. split; [rewrite calls_snoc; cbn [fst snd]; rewrite DC, app_nil_r; exact J1|]. split; [|reflexivity].
        cbn [right_verdict wanted_key]. subst err. destruct known as [k|]; [|reflexivity].
        assert (NM : match reg (calls_of p c) n with Some k0 => names_key resp k0 | None => forall k0, ~ names_key resp k0 end).
        { destruct (visible (calls_of p c) n) as [k0|] eqn:VI; [rewrite (visible_reg _ _ _ VI); right; exact (proj2 X)|].
          destruct (reg (calls_of p c) n) as [k0|] eqn:R0; [left; exact (proj2 X)|].
          destruct (C24_key_lookup C OK dl0 vk sk size r1 r2 (calls_of p c) d n B F (V n IN) NN) as (ap & _ & SH & Y). rewrite VI, R0, SR in Y.
          injection Y as Y. intros k0 [(ap' & st' & tb' & F1 & _)|(ap' & st' & lf' & F1 & F2 & F3)].
          - rewrite Y in F1. discriminate F1.
          - rewrite Y in F1. injection F1 as <- _. destruct SH as (_ & _ & lf & AL & PV & _). rewrite AL in F2. injection F2 as <-. rewrite PV, VI in F3. discriminate F3. }
        destruct (reg (calls_of p c) n) as [k0|].
        * destruct (beq_spec k0 k) as [->|NE].
          -- left. split; [reflexivity|]. intros k1 H. exact (names_key_fun resp k1 k H NM).
          -- right. split; [reflexivity|]. exists k0. split; [exact NM|exact NE].
        * left. split; [reflexivity|]. intros k1 H. destruct (NM k1 H).
  Qed.

  (** The rest of the session, after the visit at the place [c]. *)
  Lemma rest_of_session vs : forall c d cc e, seq_exec (srv_sem p) d0 c d -> jinv (calls_of p c) d cc 0 ->
    epoch_of (LatestSTR d) = Some e -> keeps_up e vs -> Forall (took_place p tr) vs -> in_turn tr vs ->
    (forall v vs', vs = v :: vs' -> forall a op b, lin = a ++ (fst (fst v), op, Some (snd v)) :: b -> exists m, a = c ++ m) ->
    exists cc' errs, session cc vs = Ok (cc', errs) /\ Forall2 right_verdict vs errs /\
      (forall vs' v, vs = vs' ++ [v] -> comes_with (snd v) (au_str (cc_aud cc'))).
  Proof.
    induction vs as [|[[i w] resp] vs IH]; intros c d cc e SE J EP KU TP IT FOL.
    { exists cc, []. split; [reflexivity|]. split; [constructor|]. intros vs0 v0 X. destruct vs0; discriminate X. }
    inversion TP as [|? ? T1 T2]; subst. destruct T1 as (op & II & RR & W).
    destruct (place p torn d0 tr s RU lin ORD i op (Some resp) II RR) as (a & b & Ea).
    destruct (FOL _ _ eq_refl a op b Ea) as (m & Em).
    destruct KU as (str & e' & CW & EP' & LE & KU). cbn [snd] in CW.
    destruct (directory_at dl0 vk sk size r1 r2 p d0 tr ND TK VG lin ORD a i op (Some resp) b Ea) as (da & da' & B & F & S & V).
    assert (SA : seq_exec (srv_sem p) d0 a da /\ seq_exec (srv_sem p) d m da).
    { destruct ORD as (mm & [A _ _ _ _]). rewrite Ea in A. destruct (seq_split _ _ _ _ _ A) as (d1 & S1 & _).
      assert (d1 = da) as ->. { destruct B as (dz & Nz & Rz). rewrite ND in Nz. injection Nz as <-. pose proof (seq_calls p d0 a d1 S1) as Q. rewrite Rz in Q. injection Q as ->. reflexivity. }
      split; [exact S1|]. rewrite Em in S1. destruct (seq_split _ _ _ _ _ S1) as (d2 & S2 & S3).
      assert (d2 = d) as ->. { pose proof (seq_calls p d0 c d2 S2) as Q1. rewrite (seq_calls p d0 c d SE) in Q1. injection Q1 as ->. reflexivity. }
      exact S3. }
    destruct SA as (SA & SM).
    assert (CM : calls_of p a = calls_of p c ++ calls_of p m) by (rewrite Em; apply flat_map_app).
    assert (CR : str = LatestSTR da).
    { destruct w as [n k|n known].
      - destruct W as ((r & RG) & NN & NK).
        assert (L : In (i, op, Some resp) lin) by (rewrite Ea; apply in_or_app; right; left; reflexivity).
        assert (IN : In n (names_in tr)) by exact (named p d0 tr lin ORD n op i _ L (or_introl (ex_intro _ k (ex_intro _ (Some r) RG)))).
        destruct (reg_cases OK dl0 vk sk size r1 r2 p (calls_of p a) da op n k (Some r) da' (Some resp) B F (V n IN) RG S) as (resp' & EA & X). injection EA as <-.
        assert (NIL : is_nil n || is_nil k = false) by (destruct n, k; try reflexivity; contradiction). rewrite NIL in X.
        assert (CW2 : comes_with resp (LatestSTR da)) by (destruct (reg (calls_of p a) n); exact (proj2 (proj2 X))).
        destruct CW as (ap & tb & F1), CW2 as (ap' & tb' & F2). rewrite F1 in F2. injection F2 as _ -> _. reflexivity.
      - destruct W as (LU & NN).
        assert (L : In (i, op, Some resp) lin) by (rewrite Ea; apply in_or_app; right; left; reflexivity).
        assert (IN : In n (names_in tr)) by exact (named p d0 tr lin ORD n op i _ L (or_intror LU)).
        destruct (look_cases OK dl0 vk sk size r1 r2 p (calls_of p a) da op n da' (Some resp) B F (V n IN) NN LU S) as (resp' & EA & CW2 & _). injection EA as <-.
        destruct CW as (ap & tb & F1), CW2 as (ap' & tb' & F2). rewrite F1 in F2. injection F2 as _ -> _. reflexivity. }
    subst str.
    assert (ONE : dupdates (calls_of p m) <= 1).
    { destruct J as [Bj _ _ _ _]. assert (Fc : few (calls_of p c)) by (unfold few in *; rewrite CM, dupdates_app in F; lia).
      pose proof (proj2 (root_published OK dl0 vk sk size r1 r2 _ d Bj Fc)) as E1. rewrite EP in E1. injection E1 as E1.
      pose proof (proj2 (root_published OK dl0 vk sk size r1 r2 _ da B F)) as E2. rewrite EP' in E2. injection E2 as E2.
      rewrite CM, dupdates_app in E2. lia. }
    assert (GAP : exists lag, jinv (calls_of p a) da cc lag).
    { rewrite CM. apply (gap (calls_of p c) (calls_of p m) d da cc J); [rewrite <- CM; exact F| |exact ONE|exact (seq_calls p d m da SM)].
      rewrite <- CM. apply (vrf_good_incl vk _ _) with (2 := VG). apply (calls_named p d0 tr lin ORD).
      intros y Hy. rewrite Ea. apply in_or_app. left. exact Hy. }
    destruct (one_visit a i op resp b w da cc Ea W GAP SA) as (_ & dn & cc1 & err & S' & HR & J1 & RV & LS).
    assert (SN : seq_exec (srv_sem p) d0 (a ++ [(i, op, Some resp)]) dn) by (eapply seq_exec_snoc; [exact SA|exact S']).
    destruct (IH (a ++ [(i, op, Some resp)]) dn cc1 e' SN J1) as (cc2 & errs & SS & RVs & LAST).
    - rewrite LS. exact EP'.
    - exact KU.
    - exact T2.
    - destruct vs; [exact Logic.I|exact (proj2 IT)].
    - intros [[j w2] resp2] vs' -> c2 op2 b2 Ec. cbn [fst snd] in Ec. destruct IT as ((opx & BF) & _). cbn [fst snd] in BF.
      assert (opx = op2) as ->.
      { destruct ORD as (mm & [_ _ IL _ _]). apply (invoked_same tr j _ _ (once p torn d0 tr s RU)).
        - destruct BF as (t1 & t2 & t3 & ->). apply in_or_app. right. right. apply in_or_app. right. left. reflexivity.
        - apply (IL j op2 (Some resp2)). rewrite Ec. apply in_or_app. right. left. reflexivity. }
      destruct (in_order p d0 tr lin ORD i j op op2 (Some resp) (Some resp2) a b c2 b2 Ea Ec BF) as (z & ->). exists z. rewrite <- app_assoc. reflexivity.
    - exists cc2, (err :: errs). cbn [session]. rewrite HR. cbn [bind]. rewrite SS. cbn [bind]. split; [reflexivity|]. split; [constructor; assumption|].
      intros vs' v X. destruct vs' as [|v0 vs'].
      + cbn [app] in X. injection X as <- ->. cbn [session] in SS. injection SS as <- _. cbn [snd].
        destruct J1 as [_ _ _ ST _]. cbv iota in ST. rewrite ST, LS. exact CW.
      + cbn [app] in X. injection X as _ X. exact (LAST vs' v X).
  Qed.
End Accused.

(** Any number of clients talk to one running server (any interleaving of handlers, epoch
    timer and reloads; [VG]: C24's condition on the names in use). One of them is the
    client program, set up with the server's first root; it waits for each answer, and the
    roots it gets skip no epoch. Then every answer passes all its checks, except that it is
    told, truly, that a name belongs to another key; and it has the newest root it was sent. *)
Theorem C98_never_accused : forall (C : Crypto), CryptoOk C ->
  forall dl0 vk sk size r1 r2 d0 p torn tr s cc0 vs,
  Directory_New dl0 vk sk size true r1 r2 = Ok d0 -> server_runs p torn d0 tr s ->
  (N.of_nat (ticks tr) < 2 ^ 64 - 1)%N -> vrf_good vk (names_in tr) ->
  Client_New (LatestSTR d0) true (sign_pub sk) = Ok cc0 ->
  Forall (took_place p tr) vs -> in_turn tr vs -> keeps_up 0 vs ->
  exists cc errs, session cc0 vs = Ok (cc, errs) /\ Forall2 right_verdict vs errs /\
    (forall vs' v, vs = vs' ++ [v] -> comes_with (snd v) (au_str (cc_aud cc))).
Proof.
  intros C OK dl0 vk sk size r1 r2 d0 p torn tr s cc0 vs ND RU TK VG CN TP IT KU.
  destruct (ordered p torn d0 tr s RU) as (lin & ORD).
  assert (B0 : dir_built dl0 vk sk size r1 r2 [] d0) by (exists d0; split; [exact ND|reflexivity]).
  assert (F0 : few []) by (unfold few; cbn [dupdates]; lia).
  apply (rest_of_session OK dl0 vk sk size r1 r2 p torn d0 tr s ND RU TK VG lin ORD vs [] d0 cc0 0%N).
  - constructor.
  - unfold Client_New in CN. injection CN as <-. constructor; try reflexivity; [exact B0|]. intros n tb X. discriminate X.
  - exact (proj2 (root_published OK dl0 vk sk size r1 r2 [] d0 B0 F0)).
  - exact KU.
  - exact TP.
  - exact IT.
  - intros v vs' _ a op b _. exists a. reflexivity.
Qed.
Print Assumptions C98_never_accused.

(** ... and every answer arrives as it was sent: it is no longer than a message may be, and
    what the client reads is what the server answered. (Conditions of C94: [dep] bits tell
    the names' places in the tree apart, no key is longer than [K].) *)
Theorem C98_over_the_wire : forall (C : Crypto), CryptoOk C ->
  forall dl0 vk sk size r1 r2 d0 p torn tr s,
  Directory_New dl0 vk sk size true r1 r2 = Ok d0 -> server_runs p torn d0 tr s ->
  (N.of_nat (ticks tr) < 2 ^ 64 - 1)%N -> vrf_good vk (names_in tr) ->
  uint64 dl0 -> (forall i t, In (EInv i (OReload (Some t))) tr -> uint64 t) ->
  (forall m, length (snd (vrf_prove vk m)) <= 96) ->
  forall dep K, 0 < dep -> vrf_spread dep vk (names_in tr) -> 130 * dep + 3 * K <= 6900 ->
  (forall i op n k r, In (EInv i op) tr -> registers p op n k r -> length k <= K) ->
  forall i w resp, took_place p tr (i, w, resp) -> utf8 (wanted_name w) ->
  length (response_text resp) <= 8192 /\ UnmarshalResponse (wanted_type w) (received (response_text resp)) = Ok resp.
Proof.
  intros C OK dl0 vk sk size r1 r2 d0 p torn tr s ND RU TK VG UD UR VL dep K P SD SM LK i w resp (op & II & RR & W) U.
  destruct (ordered p torn d0 tr s RU) as (lin & ORD).
  destruct (place p torn d0 tr s RU lin ORD i op (Some resp) II RR) as (a & b & Ea).
  destruct (directory_at dl0 vk sk size r1 r2 p d0 tr ND TK VG lin ORD a i op (Some resp) b Ea) as (d & d' & B & F & S & V).
  assert (L : In (i, op, Some resp) lin) by (rewrite Ea; apply in_or_app; right; left; reflexivity).
  assert (INC : incl a lin) by (intros y Hy; rewrite Ea; apply in_or_app; left; exact Hy).
  assert (INV : forall x, In x a -> In (EInv (fst (fst x)) (snd (fst x))) tr).
  { intros [[j o] rr] Hx. destruct ORD as (m & [_ _ IL _ _]). exact (IL j o rr (INC _ Hx)). }
  assert (D : deadlines_ok dl0 (calls_of p a)).
  { split; [exact UD|]. intros t Ht. unfold calls_of in Ht. apply in_flat_map in Ht as ([[j o] rr] & Hx & Hc). cbn [fst snd] in Hc.
    pose proof (INV _ Hx) as IX. cbn [fst snd] in IX. destruct o as [addr msg r| |[dl|]]; cbn [dir_calls] in Hc.
    - destruct (accept p addr msg) as [y|q]; [destruct Hc|]. destruct (Z.eqb _ _); [|destruct Hc]. destruct (q_body q); try (destruct Hc; fail). destruct Hc as [Hc|[]]. discriminate Hc.
    - destruct Hc as [Hc|[]]. discriminate Hc.
    - destruct Hc as [Hc|[]]. injection Hc as <-. exact (UR j dl IX).
    - destruct Hc. }
  assert (KS : keys_up_to K (calls_of p a)).
  { intros r n k Hk. unfold calls_of in Hk. apply in_flat_map in Hk as ([[j o] rr] & Hx & Hc). cbn [fst snd] in Hc.
    apply (LK j o n k r (INV _ Hx)). apply registers_calls. exact (calls_one p o _ Hc). }
  assert (SA : vrf_spread dep vk (names_of (calls_of p a))).
  { pose proof (calls_named p d0 tr lin ORD a INC) as CN. intros x y Ix Iy. exact (SD x y (CN x Ix) (CN y Iy)). }
  destruct w as [n k|n known]; cbn [wanted_name wanted_type] in *.
  - destruct W as ((r & RG) & NN & NK).
    assert (IN : In n (names_in tr)) by exact (named p d0 tr lin ORD n op i _ L (or_introl (ex_intro _ k (ex_intro _ (Some r) RG)))).
    pose proof (LK i op n k (Some r) II RG) as LKK. destruct RG as (addr & msg & u & v & Eo & PP & Q).
    assert (SR : Register d (Some r) n k = Ok (d', resp)).
    { rewrite Eo in S. cbn [srv_sem] in S. unfold accept in S. rewrite Q in S. unfold checkRequestType in S. cbn [q_type] in S. rewrite PP in S.
      unfold HandleRequests in S. cbn [q_type q_body] in S. change (Z.eqb RegistrationType RegistrationType) with true in S. cbv iota in S.
      destruct (Register d (Some r) n k) as [[d1 x]|]; cbn [bind] in S; [|discriminate S]. injection S as <- <-. reflexivity. }
    destruct (C94_answers_fit C OK dl0 vk sk size r1 r2 (calls_of p a) d B F D VL dep K P SA KS SM n U (V n IN)) as (FIT & _).
    pose proof (FIT (Some r) k d' resp LKK SR) as LE. split; [exact LE|].
    pose proof (C65_answers C OK dl0 vk sk size r1 r2 (calls_of p a) d B F D (Some r) (WRegistration n k false false) d' resp U SR) as A.
    cbn [type_of] in A. rewrite A. rewrite (proj2 (Nat.leb_le _ _) LE). reflexivity.
  - destruct W as (LU & NN).
    assert (IN : In n (names_in tr)) by exact (named p d0 tr lin ORD n op i _ L (or_intror LU)).
    destruct LU as (addr & msg & r & Eo & PP & Q).
    assert (SR : KeyLookup d n = Ok resp).
    { rewrite Eo in S. cbn [srv_sem] in S. unfold accept in S. rewrite Q in S. unfold checkRequestType in S. cbn [q_type] in S. rewrite PP in S.
      unfold HandleRequests in S. cbn [q_type q_body] in S. change (Z.eqb KeyLookupType RegistrationType) with false in S.
      change (Z.eqb KeyLookupType KeyLookupType) with true in S. cbv iota in S.
      destruct (KeyLookup d n) as [x|]; cbn [bind] in S; [|discriminate S]. injection S as _ <-. reflexivity. }
    destruct (C94_answers_fit C OK dl0 vk sk size r1 r2 (calls_of p a) d B F D VL dep K P SA KS SM n U (V n IN)) as (_ & FIT).
    pose proof (FIT resp NN SR) as LE. split; [exact LE|].
    assert (DA : directory_answer d None (WKeyLookup n) = Ok (d, resp)) by (cbn [directory_answer]; rewrite SR; reflexivity).
    pose proof (C65_answers C OK dl0 vk sk size r1 r2 (calls_of p a) d B F D None (WKeyLookup n) d resp U DA) as A.
    cbn [type_of] in A. rewrite A. rewrite (proj2 (Nat.leb_le _ _) LE). reflexivity.
Qed.
Print Assumptions C98_over_the_wire.

(** ** A concrete case: the run of C97_case. One client loses the race for the name and looks
    it up twice; the other wins and does the same. *)
Definition find_inv (i : nat) (tr : list (event (option Response) srv_op)) : option srv_op :=
  fold_right (fun e o => match e with EInv j op => if Nat.eqb i j then Some op else o | _ => o end) None tr.
Definition find_res (i : nat) (tr : list (event (option Response) srv_op)) : option Response :=
  fold_right (fun e o => match e with ERes j (Some r) => if Nat.eqb i j then Some r else o | _ => o end) None tr.
Fixpoint res_then_inv (i j : nat) (tr : list (event (option Response) srv_op)) : bool :=
  match tr with
  | [] => false
  | ERes i' (Some _) :: tr' => if Nat.eqb i i' then match find_inv j tr' with Some _ => true | None => false end else res_then_inv i j tr'
  | _ :: tr' => res_then_inv i j tr'
  end.
Lemma find_inv_in i tr op : find_inv i tr = Some op -> In (EInv i op) tr.
Proof.
  induction tr as [|[j o|j o] tr IH]; cbn [find_inv fold_right]; intro H; [discriminate H| |right; exact (IH H)].
  destruct (Nat.eqb_spec i j) as [<-|]; [injection H as ->; left; reflexivity|right; exact (IH H)].
Qed.
Lemma find_res_in i tr r : find_res i tr = Some r -> In (ERes i (Some r)) tr.
Proof.
  induction tr as [|[j o|j [o|]] tr IH]; cbn [find_res fold_right]; intro H; [discriminate H|right; exact (IH H)| |right; exact (IH H)].
  destruct (Nat.eqb_spec i j) as [<-|]; [injection H as ->; left; reflexivity|right; exact (IH H)].
Qed.
Lemma res_then_inv_earlier i j tr r : res_then_inv i j tr = true -> find_res i tr = Some r -> exists op, earlier (ERes i (Some r)) (EInv j op) tr.
Proof.
  induction tr as [|e tr IH]; intros H F; [discriminate H|].
  assert (REC : (exists op, earlier (ERes i (Some r)) (EInv j op) tr) -> exists op, earlier (ERes i (Some r)) (EInv j op) (e :: tr)).
  { intros (op & a & b & c & ->). exists op, (e :: a), b, c. reflexivity. }
  destruct e as [k o|k [o|]]; cbn [res_then_inv find_res fold_right] in H, F; [exact (REC (IH H F))| |exact (REC (IH H F))].
  destruct (Nat.eqb_spec i k) as [<-|]; [|exact (REC (IH H F))]. injection F as ->.
  destruct (find_inv j tr) as [op|] eqn:E; [|discriminate H]. apply find_inv_in in E. apply in_split in E as (b & c & ->).
  exists op, [], b, c. reflexivity.
Qed.
Definition wishb (p : permtable) (op : srv_op) (w : wish) : bool :=
  match op with
  | OMsg addr msg o =>
      match obind msg UnmarshalRequest, w with
      | Some (mkReq t (WRegistration n k _ _)), WantRegister n' k' =>
          match o with Some _ => true | None => false end && Z.eqb t RegistrationType && p addr RegistrationType && beq n n' && beq k k' && negb (is_nil n) && negb (is_nil k)
      | Some (mkReq t (WKeyLookup n)), WantLook n' _ => Z.eqb t KeyLookupType && p addr KeyLookupType && beq n n' && negb (is_nil n)
      | _, _ => false
      end
  | _ => false
  end.
Definition root_of (resp : Response) : option (DirSTR * N) :=
  match r_df resp with
  | Some (DProof (Some (mkDP [Some _] [Some str] _))) => match epoch_of str with Some e => Some (str, e) | None => None end
  | _ => None
  end.
Fixpoint visits_of (tr : list (event (option Response) srv_op)) (l : list (nat * wish)) : option (list visit) :=
  match l with
  | [] => Some []
  | (i, w) :: l' => match find_res i tr, visits_of tr l' with Some r, Some vs => Some ((i, w, r) :: vs) | _, _ => None end
  end.
Fixpoint session_okb (p : permtable) (tr : list (event (option Response) srv_op)) (e : N) (l : list (nat * wish)) : bool :=
  match l with
  | [] => true
  | (i, w) :: l' =>
      match find_inv i tr, find_res i tr with
      | Some op, Some r => wishb p op w && match root_of r with Some (_, e') => N.leb e' (e + 1) && session_okb p tr e' l' | None => false end
      | _, _ => false
      end && match l' with (j, _) :: _ => res_then_inv i j tr | [] => true end
  end.
Lemma session_ok p tr l : forall e, session_okb p tr e l = true ->
  exists vs, visits_of tr l = Some vs /\ map fst vs = l /\ Forall (took_place p tr) vs /\ in_turn tr vs /\ keeps_up e vs.
Proof.
  induction l as [|[i w] l IH]; intros e H; cbn [session_okb] in H.
  { exists []. split; [reflexivity|]. split; [reflexivity|]. split; [constructor|]. split; exact Logic.I. }
  apply andb_true_iff in H as (H & T). destruct (find_inv i tr) as [op|] eqn:FI; [|discriminate H]. destruct (find_res i tr) as [r|] eqn:FR; [|discriminate H].
  apply andb_true_iff in H as (WB & H). destruct (root_of r) as [[str e']|] eqn:RO; [|discriminate H].
  apply andb_true_iff in H as (LE & H). destruct (IH e' H) as (vs & EV & MF & TP & IT & KU). exists ((i, w, r) :: vs).
  cbn [visits_of]. rewrite FR, EV. split; [reflexivity|]. split; [cbn [map fst]; rewrite MF; reflexivity|]. split; [|split].
  - constructor; [|exact TP]. exists op. split; [apply find_inv_in; exact FI|]. split; [apply find_res_in; exact FR|].
    unfold wishb in WB. destruct op as [addr msg o| |]; try discriminate WB. destruct (obind msg UnmarshalRequest) as [[t b]|] eqn:U; [|discriminate WB].
    destruct w as [n' k'|n' kn].
    all: destruct b as [n k u v|n| | | | |]; try discriminate WB.
    + rewrite !andb_true_iff in WB. destruct WB as ((((((WO & WT) & WP) & WN) & WK) & WNN) & WKN). destruct o as [o|]; [|discriminate WO].
      apply Z.eqb_eq in WT. apply beq_eq in WN, WK. subst t n' k'. split; [|split; [destruct n; [discriminate WNN|discriminate]|destruct k; [discriminate WKN|discriminate]]].
      exists o, addr, msg, u, v. split; [reflexivity|]. split; [exact WP|exact U].
    + rewrite !andb_true_iff in WB. destruct WB as (((WT & WP) & WN) & WNN). apply Z.eqb_eq in WT. apply beq_eq in WN. subst t n'.
      split; [|destruct n; [discriminate WNN|discriminate]]. exists addr, msg, o. split; [reflexivity|]. split; [exact WP|exact U].
  - destruct vs as [|[[j w2] r2] vs]; [exact Logic.I|]. split; [|exact IT]. cbn [fst snd]. cbn [map fst] in MF. subst l. cbn [map] in T.
    apply res_then_inv_earlier; [exact T|exact FR].
  - cbn [keeps_up snd]. unfold root_of in RO. destruct (r_df r) as [[[[[|[ap|] [|? ?]] [|[st|] [|? ?]] tb]|]|]|] eqn:DF; try discriminate RO.
    destruct (epoch_of st) as [ee|] eqn:EE; [|discriminate RO]. injection RO as -> ->. exists str, e'. split; [exists ap, tb; exact DF|]. split; [exact EE|].
    split; [apply N.leb_le; exact LE|exact KU].
Qed.
Definition tg_loser : list (nat * wish) := [(0, WantRegister [x61] [x62]); (3, WantLook [x61] (Some [x62])); (6, WantLook [x61] None)].
Definition tg_winner : list (nat * wish) := [(1, WantRegister [x61] [x63]); (4, WantLook [x61] (Some [x63])); (6, WantLook [x61] None)].
Definition errs_of (cc : result Checks) (tr : list (event (option Response) srv_op)) (l : list (nat * wish)) : list (option ErrorCode) :=
  match cc, visits_of tr l with
  | Ok cc, Some vs => match @session ToyCrypto cc vs with Ok (_, e) => e | Panic => [] end
  | _, _ => [] end.
Lemma code_dec (x y : option ErrorCode) : {x = y} + {x <> y}.
Proof. decide equality. apply Z.eq_dec. Defined.
Definition some_codeb (a b : list (option ErrorCode)) : bool := if list_eq_dec code_dec a b then true else false.
Example C98_case : exists d0 tr s cc0,
  toy_dir0 = Ok d0 /\ @server_runs ToyCrypto tg_perm tg_torn d0 tr s /\ (N.of_nat (ticks tr) < 2 ^ 64 - 1)%N /\
  @vrf_good ToyCrypto [x11] (names_in tr) /\ @Client_New (LatestSTR d0) true (@sign_pub ToyCrypto [x10]) = Ok cc0 /\
  (exists vs, map fst vs = tg_loser /\ Forall (took_place tg_perm tr) vs /\ in_turn tr vs /\ keeps_up 0 vs /\
     exists cc, @session ToyCrypto cc0 vs = Ok (cc, [Some CheckBindingsDiffer; Some CheckBindingsDiffer; None])) /\
  (exists vs, map fst vs = tg_winner /\ Forall (took_place tg_perm tr) vs /\ in_turn tr vs /\ keeps_up 0 vs /\
     exists cc, @session ToyCrypto cc0 vs = Ok (cc, [None; None; None])).
Proof.
  assert (H : match tg_run, toy_dir0 with
              | Ok (tr, _), Ok d0 => tg_ok tr && session_okb tg_perm tr 0 tg_loser && session_okb tg_perm tr 0 tg_winner
                 && some_codeb (errs_of (@Client_New (LatestSTR d0) true (@sign_pub ToyCrypto [x10])) tr tg_loser) [Some CheckBindingsDiffer; Some CheckBindingsDiffer; None]
                 && some_codeb (errs_of (@Client_New (LatestSTR d0) true (@sign_pub ToyCrypto [x10])) tr tg_winner) [None; None; None]
              | _, _ => false end = true) by (vm_cast_no_check (eq_refl true)).
  unfold tg_run in H. destruct toy_dir0 as [d0|] eqn:E; [|discriminate H]. cbn [bind] in H.
  pose proof (exec_reach Directory (option Response) srv_op
     (srv_code (C := ToyCrypto) tg_perm tg_torn) (srv_reader tg_perm) (srv_direct tg_perm) d0 tg_schedule _ _ (r_init _ _ _ _ _ _ d0)) as R.
  destruct (exec _ _ _ _ _ _ _ _ _) as [tr s]. cbn [fst snd] in R.
  rewrite !andb_true_iff in H. destruct H as ((((T & LO) & WI) & CL) & CW).
  unfold tg_ok in T. apply andb_true_iff in T as (T & TT). apply andb_true_iff in T as (SP & _). apply Nat.eqb_eq in TT.
  eexists d0, tr, s, _. split; [reflexivity|]. split; [exact R|]. split; [rewrite TT; reflexivity|]. split; [exact (spreadb_good _ SP)|]. split; [reflexivity|].
  assert (DONE : forall l want, session_okb tg_perm tr 0 l = true -> want <> [] ->
    some_codeb (errs_of (@Client_New (LatestSTR d0) true (@sign_pub ToyCrypto [x10])) tr l) want = true ->
    exists vs, map fst vs = l /\ Forall (took_place tg_perm tr) vs /\ in_turn tr vs /\ keeps_up 0 vs /\
      exists cc, @session ToyCrypto (mkCC (mkAud (@sign_pub ToyCrypto [x10]) (LatestSTR d0)) [] true []) vs = Ok (cc, want)).
  { intros l want A NE B. destruct (session_ok _ _ _ _ A) as (vs & V & MF & TP & IT & KU). exists vs. split; [exact MF|]. split; [exact TP|].
    split; [exact IT|]. split; [exact KU|]. unfold errs_of in B. rewrite V in B. cbn [Client_New] in B.
    unfold some_codeb in B. destruct (list_eq_dec _ _ _) as [Q|] in B; [|discriminate B].
    destruct (session _ vs) as [[cc e]|]; [exists cc; rewrite Q; reflexivity|contradiction (NE (eq_sym Q))]. }
  split; apply DONE; try assumption; discriminate.
Qed.

(** The same run with proofs of a fixed length (FixedCrypto) meets the conditions on sizes. *)
Definition fixed_dir0 : result Directory := @Directory_New FixedCrypto 60 [x11] [x10] 8 true (Some [x07]) (Some [x08]).
Definition small_op (e : event (option Response) srv_op) : bool :=
  match e with
  | EInv _ (OMsg _ msg _) => match obind msg UnmarshalRequest with
      | Some q => match q_body q with WRegistration n k _ _ => beq n [x61] && Nat.leb (length k) 900 | WKeyLookup n => beq n [x61] | _ => true end
      | None => true end
  | EInv _ (OReload (Some _)) => false
  | _ => true
  end.
Definition fixed_run : result (list (event (option Response) srv_op) * state Directory (option Response) srv_op) :=
  do d0 <- fixed_dir0;
  Ok (exec _ _ _ (srv_code (C := FixedCrypto) tg_perm tg_torn) (srv_reader tg_perm) (srv_direct tg_perm) (initial d0) [] tg_schedule).
Lemma small_names tr : forallb small_op tr = true -> forall n, In n (names_in tr) -> n = [x61].
Proof.
  intros H n I. rewrite forallb_forall in H. unfold names_in in I. apply in_flat_map in I as (e & Ie & I). specialize (H e Ie).
  destruct e as [i [addr msg r| |]|]; cbn [small_op] in H; try (destruct I; fail). destruct (obind msg UnmarshalRequest) as [q|]; [|destruct I].
  destruct (q_body q); try (destruct I; fail); destruct I as [<-|[]]; [apply andb_true_iff in H as (H & _)|]; apply beq_eq; exact H.
Qed.
Example C98_wire_case : exists d0 tr s vs,
  fixed_dir0 = Ok d0 /\ @server_runs FixedCrypto tg_perm tg_torn d0 tr s /\ (N.of_nat (ticks tr) < 2 ^ 64 - 1)%N /\
  @vrf_good FixedCrypto [x11] (names_in tr) /\ uint64 60 /\ (forall i t, In (EInv i (OReload (Some t))) tr -> uint64 t) /\
  (forall m, length (snd (@vrf_prove FixedCrypto [x11] m)) <= 96) /\
  0 < 32 /\ @vrf_spread FixedCrypto 32 [x11] (names_in tr) /\ 130 * 32 + 3 * 900 <= 6900 /\
  (forall i op n k r, In (EInv i op) tr -> registers tg_perm op n k r -> length k <= 900) /\
  map fst vs = tg_loser /\ Forall (took_place tg_perm tr) vs.
Proof.
  assert (H : match fixed_run with Ok (tr, _) => forallb small_op tr && Nat.eqb (ticks tr) 2 && session_okb tg_perm tr 0 tg_loser | Panic => false end = true)
    by (vm_cast_no_check (eq_refl true)).
  unfold fixed_run in H. destruct fixed_dir0 as [d0|] eqn:E; [|discriminate H]. cbn [bind] in H.
  pose proof (exec_reach Directory (option Response) srv_op
     (srv_code (C := FixedCrypto) tg_perm tg_torn) (srv_reader tg_perm) (srv_direct tg_perm) d0 tg_schedule _ _ (r_init _ _ _ _ _ _ d0)) as R.
  destruct (exec _ _ _ _ _ _ _ _ _) as [tr s]. cbn [fst snd] in R.
  rewrite !andb_true_iff in H. destruct H as ((SM & TT) & SO). apply Nat.eqb_eq in TT.
  destruct (session_ok _ _ _ _ SO) as (vs & _ & MF & TP & _ & _). exists d0, tr, s, vs.
  pose proof (small_names tr SM) as ONE. rewrite forallb_forall in SM.
  assert (SPR : forall k, @vrf_spread FixedCrypto k [x11] (names_in tr)) by (intros k a b Ia Ib _; rewrite (ONE a Ia), (ONE b Ib); reflexivity).
  split; [reflexivity|]. split; [exact R|]. split; [rewrite TT; reflexivity|].
  split; [split; [apply SPR|intros k Ik; rewrite (ONE k Ik); vm_compute; reflexivity]|]. split; [reflexivity|].
  split; [intros i t I; discriminate (SM _ I)|]. split; [intro m; cbn; lia|]. split; [lia|]. split; [apply SPR|]. split; [rewrite n6900; lia|].
  split; [|split; assumption].
  intros i op n k r I (addr & msg & u & v & -> & _ & Q). specialize (SM _ I). cbn [small_op] in SM. rewrite Q in SM. cbn [q_body] in SM.
  apply andb_true_iff in SM as (_ & SM). apply Nat.leb_le. exact SM.
Qed.
