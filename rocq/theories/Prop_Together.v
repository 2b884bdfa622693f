(** C97: what clients of the concurrent server may rely on between them
    (Conc.v, Prop_Server.v, Prop_Directory.v). *)
From Coq Require Import List NArith ZArith Lia Bool Arith.
From Verif Require Import Base Utils Crypto Tree TreeSpec STR PAD PADSpec PADMain Protocol Directory DirSpec DirFacts DirMain Prop_Directory
  Path Json Wire Conc Server ServerFacts ServerWire Prop_Server.
Import ListNotations.
Local Open Scope list_scope.
Local Open Scope nat_scope.
Notation length := List.length.

(** ** Requests and answers
    Specification only: conditions on the messages (application/serverbase.go 195-249 hands
    them to the handler) and on the responses (protocol/directory/directory.go 129-214).
    None of these definitions models a line of its own in /repo. *)
(** The operation is a message, at an address that takes registrations, asking for
    [k] to be registered for [name] with the entropy [r] at hand. *)
Definition registers (p : permtable) (op : srv_op) (name k : bytes) (r : option bytes) : Prop :=
  exists addr msg u v, op = OMsg addr msg r /\ p addr RegistrationType = true /\
    obind msg UnmarshalRequest = Some (mkReq RegistrationType (WRegistration name k u v)).
(** ... a message, at an address that takes lookups, asking for the key of [name]. *)
Definition looks_up (p : permtable) (op : srv_op) (name : bytes) : Prop :=
  exists addr msg r, op = OMsg addr msg r /\ p addr KeyLookupType = true /\
    obind msg UnmarshalRequest = Some (mkReq KeyLookupType (WKeyLookup name)).
(** All names in such messages.
    No line of its own in /repo: a condition on the runs quantified over. *)
Definition names_in {R} (tr : list (event R srv_op)) : list bytes :=
  flat_map (fun e => match e with
    | EInv _ (OMsg _ msg _) => match obind msg UnmarshalRequest with
        | Some q => match q_body q with WRegistration n _ _ _ => [n] | WKeyLookup n => [n] | _ => [] end
        | None => [] end
    | _ => [] end) tr.
(** The answer names the key [k]: as a promise, or in the tree. It comes with the
    root [str]. *)
Definition promises (resp : Response) (k : bytes) : Prop :=
  exists ap str tb, r_df resp = Some (DProof (Some (mkDP [Some ap] [Some str] (Some tb)))) /\ tb_value tb = k.
Definition proves (resp : Response) (k : bytes) : Prop :=
  exists ap str leaf, r_df resp = Some (DProof (Some (mkDP [Some ap] [Some str] None))) /\ ap_leaf ap = Some leaf /\ pn_value leaf = Some k.
Definition comes_with (resp : Response) (str : DirSTR) : Prop :=
  exists ap tb, r_df resp = Some (DProof (Some (mkDP [Some ap] [Some str] tb))).
(** One event comes before another in the trace. *)
Definition earlier {X} (a b : X) (tr : list X) : Prop := exists l1 l2 l3, tr = l1 ++ a :: l2 ++ b :: l3.

(** ** One operation in one history *)
Lemma registers_calls p op n k r : dir_calls p op = [DRegister r n k] <-> registers p op n k r.
Proof.
  split.
  - destruct op as [addr msg r'| |[dl|]]; cbn [dir_calls]; try discriminate. unfold accept.
    destruct (obind msg UnmarshalRequest) as [q|] eqn:Q; [|discriminate].
    destruct (checkRequestType p addr (q_type q)) eqn:P; [|discriminate].
    destruct (Z.eqb_spec (q_type q) RegistrationType) as [T|T]; [|discriminate].
    destruct q as [t b]. cbn [q_type q_body] in *. destruct b; try discriminate. intro E. injection E as <- <- <-. subst t.
    eexists addr, msg, _, _. split; [reflexivity|]. split; [exact P|exact Q].
  - intros (addr & msg & u & v & -> & P & Q). cbn [dir_calls]. unfold accept. rewrite Q. unfold checkRequestType. cbn [q_type]. rewrite P.
    change (Z.eqb RegistrationType RegistrationType) with true. reflexivity.
Qed.
Lemma calls_one p op x : In x (dir_calls p op) -> dir_calls p op = [x].
Proof.
  destruct op as [addr msg r| |[dl|]]; cbn [dir_calls].
  - destruct (accept p addr msg) as [y|q]; [intros []|]. destruct (Z.eqb _ _); [|intros []].
    destruct (q_body q); try (intros []; fail). intros [<-|[]]. reflexivity.
  - intros [<-|[]]. reflexivity.
  - intros [<-|[]]. reflexivity.
  - intros [].
Qed.

Section One.
  Context {C : Crypto} (OK : CryptoOk C).
  Variables (dl0 : N) (vk sk : bytes) (size : nat) (r1 r2 : option bytes) (p : permtable).
  Notation built := (dir_built dl0 vk sk size r1 r2).

  (** The answer to a registration, given what the directory went through. *)
  Lemma reg_cases ops d op n k r d' ans : built ops d -> few ops -> vrf_good vk (n :: names_of ops) ->
    registers p op n k r -> srv_sem p op d = Ok (d', ans) ->
    exists resp, ans = Some resp /\
    if is_nil n || is_nil k then r_error resp = ErrMalformedMessage else
    match reg ops n with
    | Some k0 => r_error resp = ReqNameExisted /\ (promises resp k0 \/ proves resp k0) /\ comes_with resp (LatestSTR d)
    | None => match r with
              | Some _ => r_error resp = ReqSuccess /\ promises resp k /\ comes_with resp (LatestSTR d)
              | None => r_error resp = ErrDirectory
              end
    end.
  Proof.
    intros B F VG (addr & msg & u & v & -> & P & Q) S. cbn [srv_sem] in S. unfold accept in S. rewrite Q in S.
    unfold checkRequestType in S. cbn [q_type] in S. rewrite P in S. unfold HandleRequests in S. cbn [q_type q_body] in S.
    change (Z.eqb RegistrationType RegistrationType) with true in S. cbv iota in S.
    destruct (C24_register C OK dl0 vk sk size r1 r2 ops d r n k B F VG) as (d1 & resp & E & X). rewrite E in S. cbn [bind] in S. injection S as <- <-.
    exists resp. split; [reflexivity|]. destruct (is_nil n || is_nil k). { destruct X as (_ & ->). reflexivity. }
    destruct X as (X0 & X1 & X2 & X3). destruct (reg ops n) as [k0|] eqn:RG.
    - destruct (visible ops n) as [k1|] eqn:V.
      + destruct (X3 k1 eq_refl) as (_ & ap & -> & _ & _ & _ & leaf & AL & PV & _). rewrite (visible_reg _ _ _ V) in RG. injection RG as ->.
        split; [reflexivity|]. split; [|exists ap, None; reflexivity]. right. eexists ap, _, leaf. split; [reflexivity|]. split; [exact AL|exact PV].
      + destruct (X2 k0 eq_refl eq_refl) as (_ & ap & tb & -> & _ & _ & _ & TV & _).
        split; [reflexivity|]. split; [|exists ap, (Some tb); reflexivity]. left. eexists ap, _, tb. split; [reflexivity|exact TV].
    - destruct r as [r|].
      + destruct (X1 eq_refl ltac:(discriminate)) as (ap & tb & -> & _ & _ & _ & TV & _).
        split; [reflexivity|]. split; [|exists ap, (Some tb); reflexivity]. eexists ap, _, tb. split; [reflexivity|exact TV].
      + destruct (X0 eq_refl eq_refl) as (_ & ->). reflexivity.
  Qed.
  (** The answer to a lookup. *)
  Lemma look_cases ops d op n d' ans : built ops d -> few ops -> vrf_good vk (n :: names_of ops) -> n <> [] ->
    looks_up p op n -> srv_sem p op d = Ok (d', ans) ->
    exists resp, ans = Some resp /\ comes_with resp (LatestSTR d) /\
    match visible ops n, reg ops n with
    | Some k, _ => r_error resp = ReqSuccess /\ proves resp k
    | None, Some k => r_error resp = ReqSuccess /\ promises resp k
    | None, None => r_error resp = ReqNameNotFound
    end.
  Proof.
    intros B F VG NN (addr & msg & r & -> & P & Q) S. cbn [srv_sem] in S. unfold accept in S. rewrite Q in S.
    unfold checkRequestType in S. cbn [q_type] in S. rewrite P in S. unfold HandleRequests in S. cbn [q_type q_body] in S.
    change (Z.eqb KeyLookupType RegistrationType) with false in S. change (Z.eqb KeyLookupType KeyLookupType) with true in S. cbv iota in S.
    destruct (C24_key_lookup C OK dl0 vk sk size r1 r2 ops d n B F VG NN) as (ap & _ & SH & X).
    destruct (visible ops n) as [k|] eqn:V.
    - rewrite X in S. cbn [bind] in S. injection S as _ <-. eexists. split; [reflexivity|]. split; [exists ap, None; reflexivity|]. split; [reflexivity|].
      destruct SH as (_ & _ & leaf & AL & PV & _). eexists ap, _, leaf. split; [reflexivity|]. split; [exact AL|exact PV].
    - destruct (reg ops n) as [k|] eqn:E.
      + destruct X as (tb & X & _ & TV & _). rewrite X in S. cbn [bind] in S. injection S as _ <-.
        eexists. split; [reflexivity|]. split; [exists ap, (Some tb); reflexivity|]. split; [reflexivity|]. eexists ap, _, tb. split; [reflexivity|exact TV].
      + rewrite X in S. cbn [bind] in S. injection S as _ <-. eexists. split; [reflexivity|]. split; [exists ap, None; reflexivity|reflexivity].
  Qed.

  (** The root of an answer is the one published for the latest epoch. *)
  Lemma root_published ops d : built ops d -> few ops ->
    published dl0 vk sk size r1 r2 ops (dupdates ops) (LatestSTR d) /\ epoch_of (LatestSTR d) = Some (N.of_nat (dupdates ops)).
  Proof.
    intros B F. assert (F' : (N.of_nat (dupdates ops) < two64)%N) by (unfold few, two64 in *; lia).
    destruct (built_dir_inv OK _ _ _ _ _ _ _ _ B F') as (pops & hist & I & _ & P).
    pose proof (latest_nth _ _ _ _ _ _ _ _ I) as L. split.
    - destruct (P (dupdates ops) (le_n _)) as (s & N & PU). rewrite L in N. injection N as <-. exact PU.
    - unfold epoch_of. cbn. f_equal. exact (latestEpoch_eq _ _ _ _ _ _ _ _ I).
  Qed.
  Lemma published_fun ops b k s s' : k <= dupdates ops -> published dl0 vk sk size r1 r2 ops k s -> published dl0 vk sk size r1 r2 (ops ++ b) k s' -> s = s'.
  Proof.
    intros L (d & (d0 & N & R) & ->) (d' & (d0' & N' & R') & ->). rewrite (dupto_app k ops b L) in R'.
    rewrite N in N'. injection N' as <-. rewrite R in R'. injection R' as <-. reflexivity.
  Qed.
End One.

(** ** Lists *)
Lemma two_splits {X} (a b c e : list X) x y : a ++ x :: b = c ++ y :: e -> x <> y ->
  (exists m, c = a ++ x :: m) \/ (exists m, a = c ++ y :: m).
Proof.
  revert c. induction a as [|z a IH]; intros [|w c] E N; cbn [app] in E; injection E as E1 E2.
  - contradiction.
  - left. exists c. rewrite E1. reflexivity.
  - right. exists a. rewrite E1. reflexivity.
  - destruct (IH c E2 N) as [(m & ->)|(m & ->)]; subst w; [left|right]; exists m; reflexivity.
Qed.
Lemma same_tid {A B} (l : list (nat * A * B)) x y : NoDup (map tid l) -> In x l -> In y l -> tid x = tid y -> x = y.
Proof.
  induction l as [|z l IH]; intros N X Y E; [destruct X|]. cbn [map] in N. inversion N as [|? ? N1 N2]; subst.
  destruct X as [<-|X], Y as [<-|Y]; [reflexivity| | |exact (IH N2 X Y E)].
  - exfalso. apply N1. rewrite E. apply in_map. exact Y.
  - exfalso. apply N1. rewrite <- E. apply in_map. exact X.
Qed.
Lemma invoked_same {R O} (tr : list (event R O)) i op op' : NoDup (inv_tids R O tr) -> In (EInv i op) tr -> In (EInv i op') tr -> op = op'.
Proof.
  induction tr as [|e tr IH]; intros N A B; [destruct A|].
  assert (IN : forall o, In (EInv i o) tr -> In i (inv_tids R O tr)).
  { clear. induction tr as [|e tr IH]; intros o H; [destruct H|]. destruct H as [->|H]; [left; reflexivity|].
    destruct e; cbn [inv_tids]; [right|]; exact (IH o H). }
  destruct A as [->|A], B as [B|B].
  - injection B as ->. reflexivity.
  - cbn [inv_tids] in N. inversion N as [|? ? N1 _]; subst. destruct (N1 (IN _ B)).
  - subst e. cbn [inv_tids] in N. inversion N as [|? ? N1 _]; subst. destruct (N1 (IN _ A)).
  - apply IH; [|exact A|exact B]. destruct e; cbn [inv_tids] in N; [inversion N; assumption|exact N].
Qed.

(** ** Runs *)
Section Together.
  Context {C : Crypto} (OK : CryptoOk C).
  Variables (dl0 : N) (vk sk : bytes) (size : nat) (r1 r2 : option bytes) (p : permtable) (torn : Directory -> list Directory) (d0 : Directory).
  Notation built := (dir_built dl0 vk sk size r1 r2).
  Variables (tr : list (event (option Response) srv_op)) (s : state Directory (option Response) srv_op).
  Hypothesis ND : Directory_New dl0 vk sk size true r1 r2 = Ok d0.
  Hypothesis RU : server_runs p torn d0 tr s.
  Hypothesis TK : (N.of_nat (ticks tr) < 2 ^ 64 - 1)%N.
  Hypothesis VG : vrf_good vk (names_in tr).

  (** An order in which the operations could have been done one by one. *)
  Definition order (lin : list (nat * srv_op * option Response)) : Prop := exists m, linearizes (srv_sem p) d0 tr lin m.
  Lemma ordered : exists lin, order lin.
  Proof. destruct (C42_linearizable C p torn d0 tr s RU) as (_ & lin & m & L & _). exists lin, m. exact L. Qed.
  Lemma once : NoDup (inv_tids _ _ tr).
  Proof. exact (proj1 (C42_linearizable C p torn d0 tr s RU)). Qed.

  Variable lin : list (nat * srv_op * option Response).
  Hypothesis ORD : order lin.

  Lemma lin_once : NoDup (map tid lin).
  Proof. destruct ORD as (m & [A B I W O]). exact B. Qed.
  Lemma place i op ans : In (EInv i op) tr -> In (ERes i ans) tr -> exists l1 l2, lin = l1 ++ (i, op, ans) :: l2.
  Proof.
    destruct ORD as (m & [A B I W O]). intros IV RS. destruct (W i ans RS) as (op' & L).
    rewrite (invoked_same tr i op op' once IV (I _ _ _ L)). apply in_split. exact L.
  Qed.
  Lemma named n op i ans : In (i, op, ans) lin -> (exists k r, registers p op n k r) \/ looks_up p op n -> In n (names_in tr).
  Proof.
    destruct ORD as (m & [A B I W O]). intros L H. apply in_flat_map. exists (EInv i op). split; [exact (I _ _ _ L)|].
    destruct H as [(k & r & addr & msg & u & v & -> & _ & Q)|(addr & msg & r & -> & _ & Q)]; rewrite Q; left; reflexivity.
  Qed.
  Lemma calls_named l : incl l lin -> incl (names_of (calls_of p l)) (names_in tr).
  Proof.
    intros IN n H. unfold names_of in H. apply in_flat_map in H as (op & H & K). unfold calls_of in H. apply in_flat_map in H as ([[i o] ans] & L & H).
    cbn [fst snd] in H. destruct op as [r n' k| |]; cbn [op_names] in K; try (destruct K; fail). destruct K as [<-|[]].
    apply (named n' o i ans (IN _ L)). left. exists k, r. apply registers_calls. exact (calls_one p o _ H).
  Qed.
  (** The state of the directory at a place in the order. *)
  Lemma directory_at l1 i op ans l2 : lin = l1 ++ (i, op, ans) :: l2 ->
    exists d d', built (calls_of p l1) d /\ few (calls_of p l1) /\ srv_sem p op d = Ok (d', ans) /\
      forall n, In n (names_in tr) -> vrf_good vk (n :: names_of (calls_of p l1)).
  Proof.
    intro E. destruct ORD as (m & [A B I W O]).
    assert (INC : incl l1 lin) by (intros y Hy; rewrite E; apply in_or_app; left; exact Hy).
    pose proof lin_once as B1. rewrite E in A, B1. clear E. destruct (seq_split _ _ _ _ _ A) as (d & S1 & S2).
    inversion S2 as [|? ? ? ? d' ? ? S3 S4]; subst. exists d, d'. split; [exists d0; split; [exact ND|apply seq_calls; exact S1]|].
    split.
    { unfold few. pose proof (calls_ticks p tr l1) as CT. rewrite map_app in B1. apply NoDup_left in B1. specialize (CT B1).
      assert (H : forall i op (r : option Response), In (i, op, r) l1 -> In (EInv i op) tr).
      { intros a b c K. apply (I a b c). exact (INC _ K). }
      specialize (CT H). lia. }
    split; [exact S3|]. intros n Hn. apply (vrf_good_incl vk _ _) with (2 := VG). intros x [<-|K]; [exact Hn|].
    exact (calls_named l1 INC x K).
  Qed.
  Lemma calls_snoc l x : calls_of p (l ++ [x]) = calls_of p l ++ dir_calls p (snd (fst x)).
  Proof. unfold calls_of. rewrite flat_map_app. cbn [flat_map]. rewrite app_nil_r. reflexivity. Qed.
  Lemma calls_split l1 x l2 : exists c, calls_of p (l1 ++ x :: l2) = calls_of p (l1 ++ [x]) ++ c.
  Proof. exists (calls_of p l2). unfold calls_of. rewrite !flat_map_app. cbn [flat_map]. rewrite app_nil_r, app_assoc. reflexivity. Qed.

  (** What an answered registration means. *)
  Lemma reg_at l1 i op ans l2 n k r : lin = l1 ++ (i, op, ans) :: l2 -> registers p op n k r ->
    exists resp d, ans = Some resp /\ built (calls_of p l1) d /\ few (calls_of p l1) /\
    if is_nil n || is_nil k then r_error resp = ErrMalformedMessage else
    match reg (calls_of p l1) n with
    | Some k0 => r_error resp = ReqNameExisted /\ (promises resp k0 \/ proves resp k0) /\ comes_with resp (LatestSTR d)
    | None => match r with
              | Some _ => r_error resp = ReqSuccess /\ promises resp k /\ comes_with resp (LatestSTR d)
              | None => r_error resp = ErrDirectory
              end
    end.
  Proof.
    intros E RG. destruct (directory_at l1 i op ans l2 E) as (d & d' & B & F & S & V).
    assert (L : In (i, op, ans) lin) by (rewrite E; apply in_or_app; right; left; reflexivity).
    destruct (reg_cases OK dl0 vk sk size r1 r2 p (calls_of p l1) d op n k r d' ans B F (V n (named n op i ans L (or_introl (ex_intro _ k (ex_intro _ r RG))))) RG S)
      as (resp & EA & X).
    exists resp, d. split; [exact EA|]. split; [exact B|]. split; [exact F|exact X].
  Qed.
  Lemma look_at l1 i op ans l2 n : lin = l1 ++ (i, op, ans) :: l2 -> looks_up p op n -> n <> [] ->
    exists resp d, ans = Some resp /\ built (calls_of p l1) d /\ few (calls_of p l1) /\ comes_with resp (LatestSTR d) /\
    match visible (calls_of p l1) n, reg (calls_of p l1) n with
    | Some k, _ => r_error resp = ReqSuccess /\ proves resp k
    | None, Some k => r_error resp = ReqSuccess /\ promises resp k
    | None, None => r_error resp = ReqNameNotFound
    end.
  Proof.
    intros E LU NN. destruct (directory_at l1 i op ans l2 E) as (d & d' & B & F & S & V).
    assert (L : In (i, op, ans) lin) by (rewrite E; apply in_or_app; right; left; reflexivity).
    destruct (look_cases OK dl0 vk sk size r1 r2 p (calls_of p l1) d op n d' ans B F (V n (named n op i ans L (or_intror LU))) NN LU S) as (resp & EA & X).
    exists resp, d. split; [exact EA|]. split; [exact B|]. split; [exact F|exact X].
  Qed.
  (** A success registers the key for good. *)
  Lemma success_registers l1 i op resp l2 n k r : lin = l1 ++ (i, op, Some resp) :: l2 -> registers p op n k r -> r_error resp = ReqSuccess ->
    reg (calls_of p l1) n = None /\ n <> [] /\ forall l3, exists c, reg (calls_of p (l1 ++ (i, op, Some resp) :: l3)) n = Some k /\
      calls_of p (l1 ++ (i, op, Some resp) :: l3) = calls_of p (l1 ++ [(i, op, Some resp)]) ++ c /\
      reg (calls_of p (l1 ++ [(i, op, Some resp)])) n = Some k /\ dupdates (calls_of p (l1 ++ [(i, op, Some resp)])) = dupdates (calls_of p l1).
  Proof.
    intros E RG S. destruct (reg_at l1 i op _ l2 n k r E RG) as (resp' & d & EA & _ & _ & X). injection EA as <-.
    destruct (is_nil n || is_nil k) eqn:NIL; [rewrite S in X; discriminate X|].
    destruct (reg (calls_of p l1) n) as [k0|] eqn:R0; [destruct X as (X & _); rewrite S in X; discriminate X|].
    destruct r as [r|]; [|rewrite S in X; discriminate X].
    split; [reflexivity|]. split; [intros ->; discriminate NIL|]. intro l3.
    assert (ONE : reg (calls_of p (l1 ++ [(i, op, Some resp)])) n = Some k).
    { rewrite calls_snoc. cbn [fst snd]. rewrite (proj2 (registers_calls p op n k (Some r)) RG), reg_app. cbn [fold_left reg_step].
      rewrite NIL, beq_refl, R0. reflexivity. }
    destruct (calls_split l1 (i, op, Some resp) l3) as (c & EC). exists c. rewrite EC. split; [apply reg_mono; exact ONE|]. split; [reflexivity|]. split; [exact ONE|].
    rewrite calls_snoc, dupdates_app. cbn [fst snd]. rewrite (proj2 (registers_calls p op n k (Some r)) RG). cbn [dupdates]. lia.
  Qed.
  (** Every registered key goes back to a success. *)
  Lemma winner : forall l1 l2, lin = l1 ++ l2 -> forall n k, reg (calls_of p l1) n = Some k ->
    exists a i op resp r b, l1 = a ++ (i, op, Some resp) :: b /\ registers p op n k (Some r) /\ r_error resp = ReqSuccess.
  Proof.
    induction l1 as [|[[i op] ans] l1 IH] using rev_ind; intros l2 E n k H; [discriminate H|].
    rewrite <- app_assoc in E. cbn [app] in E. rewrite calls_snoc in H. cbn [fst snd] in H.
    assert (OLD : reg (calls_of p l1) n = Some k -> exists a i0 op0 resp r b, l1 ++ [(i, op, ans)] = a ++ (i0, op0, Some resp) :: b /\ registers p op0 n k (Some r) /\ r_error resp = ReqSuccess).
    { intro O. destruct (IH _ E n k O) as (a & i0 & op0 & resp & r & b & -> & RG & S). exists a, i0, op0, resp, r, (b ++ [(i, op, ans)]).
      rewrite <- app_assoc. split; [reflexivity|]. split; [exact RG|exact S]. }
    destruct (dir_calls p op) as [|x l] eqn:DC; [rewrite app_nil_r in H; exact (OLD H)|].
    pose proof (calls_one p op x) as ONE. rewrite DC in ONE. specialize (ONE (or_introl eq_refl)). injection ONE as ->.
    rewrite reg_app in H. cbn [fold_left] in H. destruct x as [[r|] n' k'| |]; cbn [reg_step] in H; try exact (OLD H).
    destruct (is_nil n' || is_nil k') eqn:NIL; [exact (OLD H)|]. destruct (beq_spec n n') as [<-|NE]; [|exact (OLD H)].
    destruct (reg (calls_of p l1) n) as [w|] eqn:R0; [injection H as ->; exact (OLD eq_refl)|]. injection H as ->.
    apply registers_calls in DC. destruct (reg_at l1 i op ans l2 n k (Some r) E DC) as (resp & d & -> & _ & _ & X).
    rewrite NIL, R0 in X. exists l1, i, op, resp, r, []. split; [reflexivity|]. split; [exact DC|exact (proj1 X)].
  Qed.
  (** Operations that did not overlap keep their order. *)
  Lemma in_order i j opi opj ai aj a b c e : lin = a ++ (i, opi, ai) :: b -> lin = c ++ (j, opj, aj) :: e ->
    earlier (ERes i ai) (EInv j opj) tr -> exists m, c = a ++ (i, opi, ai) :: m.
  Proof.
    intros E1 E2 (t1 & t2 & t3 & ET). destruct ORD as (m & [A B I W O]).
    destruct (O i j ai opj t1 t2 t3 ET) as (x & y & Tx & Ty & z1 & z2 & z3 & EZ).
    { rewrite E2, map_app. apply in_or_app. right. left. reflexivity. }
    assert (Li : In (i, opi, ai) lin) by (rewrite E1; apply in_or_app; right; left; reflexivity).
    assert (Lj : In (j, opj, aj) lin) by (rewrite E2; apply in_or_app; right; left; reflexivity).
    assert (Lx : In x lin) by (rewrite EZ; apply in_or_app; right; left; reflexivity).
    assert (Ly : In y lin) by (rewrite EZ; apply in_or_app; right; right; apply in_or_app; right; left; reflexivity).
    assert (x = (i, opi, ai)) as -> by (exact (same_tid lin _ _ B Lx Li Tx)).
    assert (y = (j, opj, aj)) as -> by (exact (same_tid lin _ _ B Ly Lj Ty)).
    assert (UQ : forall (u v u' v' : list (nat * srv_op * option Response)) q, lin = u ++ q :: v -> lin = u' ++ q :: v' -> u = u').
    { clear - B. intros u. revert B. generalize lin. clear. induction u as [|z u IH]; intros l B v [|z' u'] v' q E F; [reflexivity| | |].
      - exfalso. rewrite F in E. cbn [app] in E. injection E as E1 E2. rewrite F in B. cbn [app map] in B. inversion B as [|? ? N1 _]; subst.
        apply N1. apply in_map. apply in_or_app. right. left. reflexivity.
      - exfalso. rewrite E in F. cbn [app] in F. injection F as F1 F2. rewrite E in B. cbn [app map] in B. inversion B as [|? ? N1 _]; subst.
        apply N1. apply in_map. apply in_or_app. right. left. reflexivity.
      - destruct l as [|w l]; [discriminate E|]. cbn [app] in E, F. injection E as E1 E2. injection F as F1 F2. cbn [map] in B. inversion B as [|? ? _ N2]; subst w.
        rewrite <- F1. f_equal. exact (IH l N2 v u' v' q E2 F2). }
    assert (EZ' : lin = (z1 ++ (i, opi, ai) :: z2) ++ (j, opj, aj) :: z3) by (rewrite EZ, <- app_assoc; reflexivity).
    rewrite (UQ _ _ _ _ _ E2 EZ'), (UQ _ _ _ _ _ E1 EZ). exists z2. reflexivity.
  Qed.
End Together.

(** A server built and run as in C42 (any interleaving of the handlers' single steps, the
    epoch timer and reloads), with fewer than 2^64 - 1 ticks; [VG]: C24's condition on
    the names in use. *)
Section Theorems.
  Context {C : Crypto} (OK : CryptoOk C).
  Variables (dl0 : N) (vk sk : bytes) (size : nat) (r1 r2 : option bytes) (p : permtable) (torn : Directory -> list Directory) (d0 : Directory).
  Variables (tr : list (event (option Response) srv_op)) (s : state Directory (option Response) srv_op).
  Hypothesis ND : Directory_New dl0 vk sk size true r1 r2 = Ok d0.
  Hypothesis RU : server_runs p torn d0 tr s.
  Hypothesis TK : (N.of_nat (ticks tr) < 2 ^ 64 - 1)%N.
  Hypothesis VG : vrf_good vk (names_in tr).
  Notation lin_of := (ordered p torn d0 tr s RU).

  (** However many clients ask for the same name at the same time, at most one is told
      that it succeeded. *)
  Theorem C97_one_winner : forall i j opi opj n ki kj xi xj ri rj,
    In (EInv i opi) tr -> registers p opi n ki xi -> In (ERes i (Some ri)) tr -> r_error ri = ReqSuccess ->
    In (EInv j opj) tr -> registers p opj n kj xj -> In (ERes j (Some rj)) tr -> r_error rj = ReqSuccess -> i = j.
  Proof.
    intros i j opi opj n ki kj xi xj ri rj Ii Gi Ri Si Ij Gj Rj Sj. destruct lin_of as (lin & ORD).
    destruct (place p torn d0 tr s RU lin ORD i opi (Some ri) Ii Ri) as (a & b & Ea).
    destruct (place p torn d0 tr s RU lin ORD j opj (Some rj) Ij Rj) as (c & e & Ec).
    destruct (Nat.eq_dec i j) as [|NE]; [assumption|exfalso].
    destruct (success_registers OK dl0 vk sk size r1 r2 p d0 tr ND TK VG lin ORD a i opi ri b n ki xi Ea Gi Si) as (Na & _ & Wa).
    destruct (success_registers OK dl0 vk sk size r1 r2 p d0 tr ND TK VG lin ORD c j opj rj e n kj xj Ec Gj Sj) as (Nc & _ & Wc).
    assert (D : (i, opi, Some ri) <> (j, opj, Some rj)) by (intro E; injection E as E _ _; exact (NE E)).
    destruct (two_splits _ _ _ _ _ _ (eq_trans (eq_sym Ea) Ec) D) as [(m & ->)|(m & ->)].
    - destruct (Wa m) as (_ & W & _). rewrite W in Nc. discriminate Nc.
    - destruct (Wc m) as (_ & W & _). rewrite W in Na. discriminate Na.
  Qed.

  (** Who is told that the name exists is shown (or promised) the key of another request
      for this name, which was made before the answer and, if it was answered, successful. *)
  Theorem C97_refused_for_a_winner : forall j opj n kj xj rj,
    In (EInv j opj) tr -> registers p opj n kj xj -> In (ERes j (Some rj)) tr -> r_error rj = ReqNameExisted ->
    exists i opi ki xi, i <> j /\ In (EInv i opi) tr /\ registers p opi n ki (Some xi) /\
      ~ earlier (ERes j (Some rj)) (EInv i opi) tr /\
      (promises rj ki \/ proves rj ki) /\ forall ri, In (ERes i ri) tr -> exists x, ri = Some x /\ r_error x = ReqSuccess.
  Proof.
    intros j opj n kj xj rj Ij Gj Rj Sj. destruct lin_of as (lin & ORD).
    destruct (place p torn d0 tr s RU lin ORD j opj (Some rj) Ij Rj) as (c & e & Ec).
    destruct (reg_at OK dl0 vk sk size r1 r2 p d0 tr ND TK VG lin ORD c j opj _ e n kj xj Ec Gj) as (resp & d & EA & _ & _ & X).
    injection EA as <-. destruct (is_nil n || is_nil kj); [rewrite Sj in X; discriminate X|].
    destruct (reg (calls_of p c) n) as [ki|] eqn:R0.
    2:{ destruct xj; [destruct X as (X & _)|]; rewrite Sj in X; discriminate X. }
    destruct X as (_ & T & _).
    destruct (winner OK dl0 vk sk size r1 r2 p d0 tr ND TK VG lin ORD c _ Ec n ki R0) as (a & i & opi & ri & xi & b & -> & Gi & Si).
    assert (Ei : lin = a ++ (i, opi, Some ri) :: (b ++ (j, opj, Some rj) :: e)) by (rewrite Ec, <- app_assoc; reflexivity).
    destruct (ORD) as (m & [A B I W O]).
    assert (Li : In (i, opi, Some ri) lin) by (rewrite Ei; apply in_or_app; right; left; reflexivity).
    exists i, opi, ki, xi. split.
    { intros ->. rewrite Ei, map_app in B. cbn [map] in B. apply NoDup_remove_2 in B. apply B. apply in_or_app. right.
      rewrite map_app. apply in_or_app. right. left. reflexivity. }
    split; [exact (I _ _ _ Li)|]. split; [exact Gi|]. split; [|split; [exact T|]].
    - intro BAD. destruct (in_order p d0 tr lin ORD j i opj opi (Some rj) (Some ri) _ _ _ _ Ec Ei BAD) as (z & EZ).
      apply (f_equal (@length _)) in EZ. rewrite !app_length in EZ. cbn [List.length] in EZ. rewrite ?app_length in EZ. cbn [List.length] in EZ. lia.
    - intros ri' Ri'. destruct (W i ri' Ri') as (op' & L').
      pose proof (same_tid lin _ _ B L' Li eq_refl) as E. injection E as _ ->. exists ri. split; [reflexivity|exact Si].
  Qed.

  (** Whoever looks the name up after the winner has its answer finds the winner's key: as a
      promise as long as the root is the one the winner saw, in the tree under every later
      root; and roots never go back. *)
  Theorem C97_found_ever_after : forall i j opi opj n ki xi ri rj,
    In (EInv i opi) tr -> registers p opi n ki xi -> In (ERes i (Some ri)) tr -> r_error ri = ReqSuccess ->
    looks_up p opj n -> In (ERes j (Some rj)) tr -> earlier (ERes i (Some ri)) (EInv j opj) tr ->
    r_error rj = ReqSuccess /\ exists si sj ei ej, comes_with ri si /\ comes_with rj sj /\
      epoch_of si = Some ei /\ epoch_of sj = Some ej /\ (ei <= ej)%N /\
      ((ei = ej)%N -> promises rj ki) /\ ((ei < ej)%N -> proves rj ki).
  Proof.
    intros i j opi opj n ki xi ri rj Ii Gi Ri Si Lj Rj BF. destruct lin_of as (lin & ORD).
    assert (Ij : In (EInv j opj) tr) by (destruct BF as (t1 & t2 & t3 & ->); apply in_or_app; right; right; apply in_or_app; right; left; reflexivity).
    destruct (place p torn d0 tr s RU lin ORD i opi (Some ri) Ii Ri) as (a & b & Ea).
    destruct (place p torn d0 tr s RU lin ORD j opj (Some rj) Ij Rj) as (c & e & Ec).
    destruct (success_registers OK dl0 vk sk size r1 r2 p d0 tr ND TK VG lin ORD a i opi ri b n ki xi Ea Gi Si) as (Na & NN & Wa).
    destruct (reg_at OK dl0 vk sk size r1 r2 p d0 tr ND TK VG lin ORD a i opi _ b n ki xi Ea Gi) as (resp & di & EA & Bi & Fi & X).
    injection EA as <-. rewrite Na in X.
    destruct (is_nil n || is_nil ki); [rewrite Si in X; discriminate X|]. destruct xi as [xi|]; [|rewrite Si in X; discriminate X].
    destruct X as (_ & _ & CWi).
    destruct (look_at OK dl0 vk sk size r1 r2 p d0 tr ND TK VG lin ORD c j opj _ e n Ec Lj NN) as (resp & dj & EA & Bj & Fj & CWj & Y).
    injection EA as <-.
    destruct (in_order p d0 tr lin ORD i j opi opj (Some ri) (Some rj) a b c e Ea Ec BF) as (m & EC).
    destruct (Wa m) as (c' & RG & CS & R1 & DU). rewrite <- EC in RG, CS. rewrite RG in Y.
    pose proof (proj2 (root_published OK dl0 vk sk size r1 r2 _ di Bi Fi)) as EPi.
    pose proof (proj2 (root_published OK dl0 vk sk size r1 r2 _ dj Bj Fj)) as EPj.
    assert (DJ : dupdates (calls_of p c) = dupdates (calls_of p a) + dupdates c') by (rewrite CS, dupdates_app, DU; reflexivity).
    assert (OKJ : r_error rj = ReqSuccess) by (destruct (visible (calls_of p c) n); exact (proj1 Y)).
    split; [exact OKJ|]. exists (LatestSTR di), (LatestSTR dj), (N.of_nat (dupdates (calls_of p a))), (N.of_nat (dupdates (calls_of p c))).
    split; [exact CWi|]. split; [exact CWj|]. split; [exact EPi|]. split; [exact EPj|]. split; [lia|].
    split; intro HE.
    - assert (Z : dupdates c' = 0) by lia.
      assert (V : visible (calls_of p c) n = None).
      { unfold visible. rewrite DJ, Z, Nat.add_0_r. rewrite EC. destruct (calls_split p a (i, opi, Some ri) m) as (c2 & E2). rewrite E2.
        rewrite dupto_app by (rewrite DU; apply le_n). rewrite calls_snoc, dupto_app by apply le_n.
        destruct (reg (dupto (dupdates (calls_of p a)) (calls_of p a)) n) as [k1|] eqn:E; [|reflexivity].
        apply reg_dupto in E. rewrite Na in E. discriminate E. }
      rewrite V in Y. exact (proj2 Y).
    - assert (Z : 0 < dupdates c') by lia.
      assert (V : visible (calls_of p c) n = Some ki).
      { unfold visible. rewrite CS. destruct (dupto_past (calls_of p (a ++ [(i, opi, Some ri)])) c' Z) as (c2 & E2). rewrite E2. apply reg_mono. exact R1. }
      rewrite V in Y. exact (proj2 Y).
  Qed.

  (** All lookups of a name that find a key find the same one, whenever and on whatever
      connection they are made, and it is one that was asked for. *)
  Theorem C97_same_key_for_all : forall i j opi opj n ri rj ki kj, n <> [] ->
    In (EInv i opi) tr -> looks_up p opi n -> In (ERes i (Some ri)) tr -> promises ri ki \/ proves ri ki -> r_error ri = ReqSuccess ->
    In (EInv j opj) tr -> looks_up p opj n -> In (ERes j (Some rj)) tr -> promises rj kj \/ proves rj kj -> r_error rj = ReqSuccess ->
    ki = kj /\ exists w opw xw, In (EInv w opw) tr /\ registers p opw n ki (Some xw) /\ ~ earlier (ERes i (Some ri)) (EInv w opw) tr.
  Proof.
    intros i j opi opj n ri rj ki kj NN Ii Li Ri Ti Si Ij Lj Rj Tj Sj. destruct lin_of as (lin & ORD).
    assert (ONE : forall i opi ri ki, In (EInv i opi) tr -> looks_up p opi n -> In (ERes i (Some ri)) tr -> promises ri ki \/ proves ri ki -> r_error ri = ReqSuccess ->
      exists l1 l2, lin = l1 ++ (i, opi, Some ri) :: l2 /\ reg (calls_of p l1) n = Some ki).
    { clear - OK ND RU TK VG NN ORD. intros i opi ri ki Ii Li Ri Ti Si. destruct (place p torn d0 tr s RU lin ORD i opi (Some ri) Ii Ri) as (a & b & Ea).
      destruct (look_at OK dl0 vk sk size r1 r2 p d0 tr ND TK VG lin ORD a i opi _ b n Ea Li NN) as (resp & d & EA & _ & _ & _ & Y).
      injection EA as <-. exists a, b. split; [exact Ea|].
      assert (SAME : forall k, (promises ri k \/ proves ri k) -> k = ki).
      { intros k T. destruct Ti as [(ap & st & tb & E1 & E2)|(ap & st & lf & E1 & E2 & E3)], T as [(ap' & st' & tb' & F1 & F2)|(ap' & st' & lf' & F1 & F2 & F3)];
          rewrite E1 in F1; try discriminate F1; injection F1; intros; subst; [reflexivity|]. rewrite E2 in F2. injection F2 as <-. rewrite E3 in F3. injection F3 as ->. reflexivity. }
      destruct (visible (calls_of p a) n) as [k|] eqn:V.
      - rewrite <- (SAME k (or_intror (proj2 Y))). apply visible_reg. exact V.
      - destruct (reg (calls_of p a) n) as [k|] eqn:R0; [rewrite (SAME k (or_introl (proj2 Y))); reflexivity|]. rewrite Si in Y. discriminate Y. }
    destruct (ONE i opi ri ki Ii Li Ri Ti Si) as (a & b & Ea & Ra). destruct (ONE j opj rj kj Ij Lj Rj Tj Sj) as (c & e & Ec & Rc).
    split.
    - assert (PRE : (exists z, c = a ++ z) \/ (exists z, a = c ++ z)).
      { assert (GEN : forall (a c : list (nat * srv_op * option Response)) x y, a ++ x = c ++ y -> (exists z, c = a ++ z) \/ (exists z, a = c ++ z)).
        { clear. induction a as [|z a IH]; intros c x y E; [left; exists c; reflexivity|]. destruct c as [|w c]; [right; exists (z :: a); reflexivity|].
          cbn [app] in E. injection E as <- E. destruct (IH c x y E) as [(q & ->)|(q & ->)]; [left|right]; exists q; reflexivity. }
        exact (GEN a c _ _ (eq_trans (eq_sym Ea) Ec)). }
      destruct PRE as [(z & ->)|(z & ->)]; unfold calls_of in Ra, Rc; rewrite flat_map_app in *.
      + rewrite (reg_mono _ _ _ _ Ra) in Rc. injection Rc as ->. reflexivity.
      + rewrite (reg_mono _ _ _ _ Rc) in Ra. injection Ra as ->. reflexivity.
    - destruct (winner OK dl0 vk sk size r1 r2 p d0 tr ND TK VG lin ORD a _ Ea n ki Ra) as (u & w & opw & rw & xw & v & -> & Gw & _).
      assert (Ew : lin = u ++ (w, opw, Some rw) :: (v ++ (i, opi, Some ri) :: b)) by (rewrite Ea, <- app_assoc; reflexivity).
      exists w, opw, xw. split; [destruct ORD as (m & [A B I W O]); apply (I w opw (Some rw)); rewrite Ew; apply in_or_app; right; left; reflexivity|]. split; [exact Gw|].
      intro BAD. destruct (in_order p d0 tr lin ORD i w opi opw (Some ri) (Some rw) _ _ _ _ Ea Ew BAD) as (z & EZ).
      apply (f_equal (@length _)) in EZ. rewrite !app_length in EZ. cbn [List.length] in EZ. rewrite ?app_length in EZ. cbn [List.length] in EZ. lia.
  Qed.

  (** The roots in the answers to lookups are one chain for all clients: for one epoch one
      root, and a lookup made after an answer has a root at least as new. *)
  Theorem C97_one_chain_of_roots : forall i j opi opj ni nj ri rj si sj, ni <> [] -> nj <> [] ->
    In (EInv i opi) tr -> looks_up p opi ni -> In (ERes i (Some ri)) tr -> comes_with ri si ->
    In (EInv j opj) tr -> looks_up p opj nj -> In (ERes j (Some rj)) tr -> comes_with rj sj ->
    exists ei ej, epoch_of si = Some ei /\ epoch_of sj = Some ej /\ (ei = ej -> si = sj) /\
      (earlier (ERes i (Some ri)) (EInv j opj) tr -> (ei <= ej)%N).
  Proof.
    intros i j opi opj ni nj ri rj si sj NNi NNj Ii Li Ri Ci Ij Lj Rj Cj. destruct lin_of as (lin & ORD).
    assert (CW : forall r a b, comes_with r a -> comes_with r b -> a = b).
    { clear. intros r a b (ap & tb & E) (ap' & tb' & F). rewrite E in F. injection F as _ ->. reflexivity. }
    destruct (place p torn d0 tr s RU lin ORD i opi (Some ri) Ii Ri) as (a & b & Ea).
    destruct (place p torn d0 tr s RU lin ORD j opj (Some rj) Ij Rj) as (c & e & Ec).
    destruct (look_at OK dl0 vk sk size r1 r2 p d0 tr ND TK VG lin ORD a i opi _ b ni Ea Li NNi) as (resp & di & EA & Bi & Fi & CWi & _). injection EA as <-.
    destruct (look_at OK dl0 vk sk size r1 r2 p d0 tr ND TK VG lin ORD c j opj _ e nj Ec Lj NNj) as (resp & dj & EA & Bj & Fj & CWj & _). injection EA as <-.
    rewrite (CW _ _ _ Ci CWi), (CW _ _ _ Cj CWj). clear Ci Cj CWi CWj si sj.
    destruct (root_published OK dl0 vk sk size r1 r2 _ di Bi Fi) as (Pi & Ei).
    destruct (root_published OK dl0 vk sk size r1 r2 _ dj Bj Fj) as (Pj & Ej).
    exists (N.of_nat (dupdates (calls_of p a))), (N.of_nat (dupdates (calls_of p c))).
    split; [exact Ei|]. split; [exact Ej|]. split.
    - intro HE. apply Nat2N.inj in HE.
      assert (PRE : (exists z, calls_of p c = calls_of p a ++ z) \/ (exists z, calls_of p a = calls_of p c ++ z)).
      { assert (GEN : forall (a c : list (nat * srv_op * option Response)) x y, a ++ x = c ++ y -> (exists z, c = a ++ z) \/ (exists z, a = c ++ z)).
        { clear. induction a as [|z a IH]; intros c x y E; [left; exists c; reflexivity|]. destruct c as [|w c]; [right; exists (z :: a); reflexivity|].
          cbn [app] in E. injection E as <- E. destruct (IH c x y E) as [(q & ->)|(q & ->)]; [left|right]; exists q; reflexivity. }
        destruct (GEN a c _ _ (eq_trans (eq_sym Ea) Ec)) as [(z & ->)|(z & ->)]; [left|right]; exists (calls_of p z); unfold calls_of; apply flat_map_app. }
      assert (FUN : forall o o' k k' x y, k <= dupdates o -> k = k' -> (exists z, o' = o ++ z) ->
        published dl0 vk sk size r1 r2 o k x -> published dl0 vk sk size r1 r2 o' k' y -> x = y).
      { clear. intros o o' k k' x y L <- (z & ->) P1 P2. exact (published_fun dl0 vk sk size r1 r2 o z k x y L P1 P2). }
      destruct PRE as [PRE|PRE].
      + exact (FUN _ _ _ _ _ _ (le_n _) HE PRE Pi Pj).
      + symmetry. exact (FUN _ _ _ _ _ _ (le_n _) (eq_sym HE) PRE Pj Pi).
    - intro BF. destruct (in_order p d0 tr lin ORD i j opi opj (Some ri) (Some rj) a b c e Ea Ec BF) as (m & ->).
      destruct (calls_split p a (i, opi, Some ri) m) as (c2 & E2). rewrite E2, calls_snoc, !dupdates_app. lia.
  Qed.
End Theorems.
Print Assumptions C97_one_winner.
Print Assumptions C97_refused_for_a_winner.
Print Assumptions C97_found_ever_after.
Print Assumptions C97_same_key_for_all.
Print Assumptions C97_one_chain_of_roots.

(** ** A concrete run: two clients ask for one name at the same time, with different keys,
    the epoch timer fires in between; later lookups on the two addresses. *)
Definition tg_reg (k : bytes) : srv_op := OMsg 0 (toy_msg (WRegistration [x61] k false false)) (Some [x09]).
Definition tg_look (a : nat) : srv_op := OMsg a (toy_msg (WKeyLookup [x61])) None.
Definition tg_schedule : list (action srv_op) :=
  [Invoke _ 0 (tg_reg [x62]); Invoke _ 1 (tg_reg [x63]); Invoke _ 2 OTick]
  ++ flat_map (fun _ => [Move _ 1; Move _ 0; Move _ 2]) (seq 0 60)
  ++ [Invoke _ 3 (tg_look 0); Invoke _ 4 (tg_look 1); Invoke _ 5 OTick]
  ++ flat_map (fun _ => [Move _ 4; Move _ 5; Move _ 3]) (seq 0 60)
  ++ [Invoke _ 6 (tg_look 1)] ++ flat_map (fun _ => [Move _ 6]) (seq 0 60).
Definition tg_perm : permtable := permissions (cf_addrs toy_conf).
Definition tg_torn (d : Directory) : list Directory := [mkDirectory (dr_pad d) false [] (dr_pol d)].
Definition tg_run : result (list (event (option Response) srv_op) * state Directory (option Response) srv_op) :=
  do d0 <- toy_dir0;
  Ok (exec _ _ _ (srv_code (C := ToyCrypto) tg_perm tg_torn) (srv_reader tg_perm) (srv_direct tg_perm) (initial d0) [] tg_schedule).
Definition spreadb (L : list bytes) : bool :=
  forallb (fun a => forallb (fun b => if list_eq_dec Bool.bool_dec (firstn 248 (ToBits (@idx_of ToyCrypto [x11] a)))
     (firstn 248 (ToBits (@idx_of ToyCrypto [x11] b))) then beq a b else true) L) L.
Lemma spreadb_good L : spreadb L = true -> @vrf_good ToyCrypto [x11] L.
Proof.
  intro A. split; [|intros k _; apply ToyCrypto_vrf].
  intros a b Ia Ib E. unfold spreadb in A. rewrite forallb_forall in A. specialize (A a Ia). cbv beta in A. rewrite forallb_forall in A.
  specialize (A b Ib). cbv beta in A. destruct (list_eq_dec _ _ _); [|contradiction]. apply beq_eq. exact A.
Qed.
Definition codes (tr : list (event (option Response) srv_op)) (l : list nat) : list (list Z) := map (response_code tr) l.
Definition tg_ok (tr : list (event (option Response) srv_op)) : bool :=
  spreadb (names_in tr) && (if list_eq_dec (list_eq_dec Z.eq_dec) (codes tr [0; 1; 3; 4; 6])
     [[ReqNameExisted]; [ReqSuccess]; [ReqSuccess]; [ReqSuccess]; [ReqSuccess]] then true else false) && Nat.eqb (ticks tr) 2.
Example C97_case : exists d0 tr s,
  toy_dir0 = Ok d0 /\ @server_runs ToyCrypto tg_perm tg_torn d0 tr s /\ (N.of_nat (ticks tr) < 2 ^ 64 - 1)%N /\
  @vrf_good ToyCrypto [x11] (names_in tr) /\
  codes tr [0; 1; 3; 4; 6] = [[ReqNameExisted]; [ReqSuccess]; [ReqSuccess]; [ReqSuccess]; [ReqSuccess]] /\
  registers tg_perm (tg_reg [x62]) [x61] [x62] (Some [x09]) /\ registers tg_perm (tg_reg [x63]) [x61] [x63] (Some [x09]) /\
  looks_up tg_perm (tg_look 0) [x61] /\ looks_up tg_perm (tg_look 1) [x61].
Proof.
  assert (H : match tg_run with Ok (tr, _) => tg_ok tr | Panic => false end = true) by (vm_compute; reflexivity).
  unfold tg_run in H. destruct toy_dir0 as [d0|] eqn:E; [|discriminate H]. cbn [bind] in H.
  pose proof (exec_reach Directory (option Response) srv_op
     (srv_code (C := ToyCrypto) tg_perm tg_torn) (srv_reader tg_perm) (srv_direct tg_perm) d0 tg_schedule _ _ (r_init _ _ _ _ _ _ d0)) as R.
  destruct (exec _ _ _ _ _ _ _ _ _) as [tr s]. cbn [fst snd] in R. exists d0, tr, s.
  split; [reflexivity|]. split; [exact R|]. unfold tg_ok in H. apply andb_true_iff in H as (H & T). apply andb_true_iff in H as (SP & CD).
  apply Nat.eqb_eq in T. split; [rewrite T; reflexivity|]. split; [exact (spreadb_good _ SP)|].
  split; [destruct (list_eq_dec _ _ _) as [Q|] in CD; [exact Q|discriminate CD]|].
  assert (RT : forall b t, type_of b = t -> q_body (mkReq t b) = b) by reflexivity.
  split; [|split; [|split]].
  - exists 0, (toy_msg (WRegistration [x61] [x62] false false)), false, false. split; [reflexivity|]. split; [reflexivity|]. vm_compute. reflexivity.
  - exists 0, (toy_msg (WRegistration [x61] [x63] false false)), false, false. split; [reflexivity|]. split; [reflexivity|]. vm_compute. reflexivity.
  - exists 0, (toy_msg (WKeyLookup [x61])), None. split; [reflexivity|]. split; [reflexivity|]. vm_compute. reflexivity.
  - exists 1, (toy_msg (WKeyLookup [x61])), None. split; [reflexivity|]. split; [reflexivity|]. vm_compute. reflexivity.
Qed.
