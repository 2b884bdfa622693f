(** C41, C42, C43, C44, C55, C56: the running key server and its wire format. *)
From Coq Require Import List NArith ZArith Lia Bool Arith.
From Verif Require Import Base Utils Crypto Tree STR PAD PADSpec Protocol Directory DirSpec DirFacts DirMain Prop_Directory
  Json Wire Conc Server ServerFacts ServerWire.
Import ListNotations.

Arguments reach {Mem Resp Op}. Arguments seq_exec {Mem Resp Op}. Arguments tid {Resp Op}.
Arguments EInv {Resp Op}. Arguments ERes {Resp Op}.
Arguments st_mem {Mem Resp Op}. Arguments st_wr {Mem Resp Op}. Arguments st_rd {Mem Resp Op}.
Arguments st_thr {Mem Resp Op}. Arguments st_crashed {Mem Resp Op}.
Arguments Absent {Mem Resp Op}. Arguments Ready {Mem Resp Op}. Arguments Inside {Mem Resp Op}.
Arguments Released {Mem Resp Op}. Arguments Sent {Mem Resp Op}. Arguments mkState {Mem Resp Op}.
Arguments initial {Mem Resp Op}.

(** ** C41: who may register where *)

(** Distinct entries of the configuration are distinct allocations. *)
Definition distinct_addrs (addrs : list Address) : Prop := NoDup (map ad_ptr addrs).

Lemma permissions_spec addrs a t : distinct_addrs addrs -> In a addrs ->
  permissions addrs (ad_ptr a) t = perm_step (fun _ _ => false) a (ad_ptr a) t.
Proof.
  unfold distinct_addrs, permissions. generalize (fun (_ : nat) (_ : Z) => false) at 1.
  induction addrs as [|b l IH]; intros p N I; [destruct I|]. cbn [fold_left map] in *. inversion N as [|x y N1 N2]; subst.
  destruct I as [->|I]; [|apply IH; auto].
  clear IH. revert p. induction l as [|c l IH]; intros p; cbn [fold_left].
  - unfold perm_step. rewrite Nat.eqb_refl. reflexivity.
  - cbn [map In] in N1. inversion N2; subst.
    assert (E : forall q, fold_left perm_step l (perm_step (perm_step p a) c) (ad_ptr a) t =
                fold_left perm_step l (perm_step q a) (ad_ptr a) t -> fold_left perm_step l (perm_step (perm_step p a) c) (ad_ptr a) t = perm_step (fun _ _ => false) a (ad_ptr a) t).
    { intros q E. rewrite E. apply IH; auto. constructor; [|auto]. tauto. }
    apply (E p). clear E.
    assert (G : forall l (p q : permtable), (forall t, p (ad_ptr a) t = q (ad_ptr a) t) ->
              forall t, fold_left perm_step l p (ad_ptr a) t = fold_left perm_step l q (ad_ptr a) t).
    { clear. induction l as [|c l IH]; intros p q H t; cbn [fold_left]; auto. apply IH. intro t'.
      unfold perm_step. destruct (Nat.eqb _ _); auto. }
    apply G. intro t'. unfold perm_step at 1. destruct (Nat.eqb_spec (ad_ptr a) (ad_ptr c)) as [X|X]; auto.
    exfalso. apply N1. left; auto.
Qed.

Lemma permissions_none addrs ptr t : ~ In ptr (map ad_ptr addrs) -> permissions addrs ptr t = false.
Proof.
  unfold permissions. assert (G : forall p : permtable, p ptr t = false -> ~ In ptr (map ad_ptr addrs) -> fold_left perm_step addrs p ptr t = false).
  { induction addrs as [|a l IH]; intros p H N; cbn [fold_left map In] in *; auto. apply IH; [|tauto].
    unfold perm_step. destruct (Nat.eqb_spec ptr (ad_ptr a)) as [->|]; auto. tauto. }
  apply G; auto.
Qed.

(** The table is exactly the documented one. *)
Theorem C41_permission_table : forall addrs a, distinct_addrs addrs -> In a addrs -> forall t,
  permissions addrs (ad_ptr a) t = true <->
  t = KeyLookupType \/ t = KeyLookupInEpochType \/ t = MonitoringType \/ (t = RegistrationType /\ ad_allow a = true).
Proof.
  intros addrs a D I t. rewrite permissions_spec by auto. unfold perm_step. rewrite Nat.eqb_refl.
  destruct (Z.eqb_spec t KeyLookupType) as [->|A]; [cbn; tauto|].
  destruct (Z.eqb_spec t KeyLookupInEpochType) as [->|B]; [cbn; tauto|].
  destruct (Z.eqb_spec t MonitoringType) as [->|E]; [cbn; tauto|].
  cbn [orb]. destruct (Z.eqb_spec t RegistrationType) as [->|F]; intuition congruence.
Qed.
Print Assumptions C41_permission_table.

(** Whatever a client sends to an address without registration permission (or
    to a pointer that is no configured address), the directory afterwards is
    the directory before. *)
Theorem C41_no_permission_no_change : forall (C : Crypto) addrs ptr, distinct_addrs addrs ->
  (forall a, In a addrs -> ad_ptr a = ptr -> ad_allow a = false) ->
  forall msg r d d' resp, srv_sem (permissions addrs) (OMsg ptr msg r) d = Ok (d', resp) -> d' = d.
Proof.
  intros C addrs ptr D A msg r d d' resp. cbn [srv_sem]. unfold accept, checkRequestType.
  destruct (obind msg UnmarshalRequest) as [q|]; [|intro H; injection H as <- <-; reflexivity].
  destruct (permissions addrs ptr (q_type q)) eqn:P; [|intro H; injection H as <- <-; reflexivity].
  assert (NR : Z.eqb (q_type q) RegistrationType = false).
  { destruct (Z.eqb_spec (q_type q) RegistrationType) as [E|]; auto. exfalso. rewrite E in P.
    destruct (in_dec Nat.eq_dec ptr (map ad_ptr addrs)) as [I|I].
    - apply in_map_iff in I as (a & Ea & Ia). subst ptr.
      apply (C41_permission_table addrs a D Ia) in P. specialize (A a Ia eq_refl).
      unfold KeyLookupType, KeyLookupInEpochType, MonitoringType, RegistrationType in P.
      destruct P as [P|[P|[P|[_ P]]]]; congruence.
    - rewrite permissions_none in P by auto. discriminate P. }
  unfold HandleRequests. rewrite NR. cbn iota.
  destruct (Z.eqb (q_type q) KeyLookupType).
  { destruct (q_body q); cbn [bind]; try (intro H; injection H as <- <-; reflexivity).
    destruct (KeyLookup d name); cbn [bind]; intro H; [injection H as <- <-; reflexivity|discriminate H]. }
  destruct (Z.eqb (q_type q) KeyLookupInEpochType).
  { destruct (q_body q); cbn [bind]; try (intro H; injection H as <- <-; reflexivity).
    destruct (KeyLookupInEpoch d name epoch); cbn [bind]; intro H; [injection H as <- <-; reflexivity|discriminate H]. }
  destruct (Z.eqb (q_type q) MonitoringType).
  { destruct (q_body q); cbn [bind]; try (intro H; injection H as <- <-; reflexivity).
    destruct (Monitor d name startEpoch endEpoch); cbn [bind]; intro H; [injection H as <- <-; reflexivity|discriminate H]. }
  cbn [bind]. intro H; injection H as <- <-; reflexivity.
Qed.
Print Assumptions C41_no_permission_no_change.

(** What an encoded request gets as an answer on a configured address: exactly
    what the directory answers to it, registrations only with permission. *)
Definition directory_answer {C : Crypto} (d : Directory) (r : option bytes) (b : body) : result (Directory * Response) :=
  match b with
  | WRegistration n k _ _ => Register d r n k
  | WKeyLookup n => do x <- KeyLookup d n; Ok (d, x)
  | WKeyLookupInEpoch n e => do x <- KeyLookupInEpoch d n e; Ok (d, x)
  | WMonitoring n s e => do x <- Monitor d n s e; Ok (d, x)
  | _ => Ok (d, NewErrorResponse ErrMalformedMessage)
  end.
Definition is_registration (b : body) : bool := match b with WRegistration _ _ _ _ => true | _ => false end.

Theorem C41_requests_served : forall (C : Crypto) addrs a, distinct_addrs addrs -> In a addrs ->
  forall b r d, wf_body b ->
  srv_sem (permissions addrs) (OMsg (ad_ptr a) (Some (MarshalRequest (type_of b) b)) r) d =
  if is_registration b && negb (ad_allow a) then Ok (d, Some (NewErrorResponse ErrMalformedMessage))
  else do (d', resp) <- directory_answer d r b; Ok (d', Some resp).
Proof.
  intros C addrs a D I b r d W. cbn [srv_sem]. unfold accept. cbn [obind]. rewrite request_round_trip by auto.
  unfold checkRequestType. cbn [q_type]. rewrite permissions_spec by auto. unfold perm_step. rewrite Nat.eqb_refl.
  destruct b; try (destruct W; fail); cbn [type_of is_registration andb directory_answer].
  - change (Z.eqb RegistrationType KeyLookupType || Z.eqb RegistrationType KeyLookupInEpochType || Z.eqb RegistrationType MonitoringType) with false.
    change (Z.eqb RegistrationType RegistrationType) with true. cbn iota. destruct (ad_allow a); cbn [negb]; reflexivity.
  - change (Z.eqb KeyLookupType KeyLookupType || Z.eqb KeyLookupType KeyLookupInEpochType || Z.eqb KeyLookupType MonitoringType) with true.
    cbn iota. reflexivity.
  - change (Z.eqb KeyLookupInEpochType KeyLookupType || Z.eqb KeyLookupInEpochType KeyLookupInEpochType || Z.eqb KeyLookupInEpochType MonitoringType) with true.
    cbn iota. reflexivity.
  - change (Z.eqb MonitoringType KeyLookupType || Z.eqb MonitoringType KeyLookupInEpochType || Z.eqb MonitoringType MonitoringType) with true.
    cbn iota. reflexivity.
Qed.
Print Assumptions C41_requests_served.

(** Every other request type is refused, everywhere. *)
Theorem C41_other_types_refused : forall (C : Crypto) addrs ptr, distinct_addrs addrs ->
  forall msg r d q, obind msg UnmarshalRequest = Some q ->
  ~ In (q_type q) [RegistrationType; KeyLookupType; KeyLookupInEpochType; MonitoringType] ->
  srv_sem (permissions addrs) (OMsg ptr msg r) d = Ok (d, Some (NewErrorResponse ErrMalformedMessage)).
Proof.
  intros C addrs ptr D msg r d q Q N. cbn [srv_sem]. unfold accept, checkRequestType. rewrite Q.
  destruct (permissions addrs ptr (q_type q)) eqn:P; [|reflexivity]. exfalso. apply N.
  destruct (in_dec Nat.eq_dec ptr (map ad_ptr addrs)) as [I|I].
  - apply in_map_iff in I as (a & <- & Ia). apply (C41_permission_table addrs a D Ia) in P. cbn [In].
    destruct P as [P|[P|[P|[P _]]]]; rewrite P; tauto.
  - rewrite permissions_none in P by auto. discriminate P.
Qed.
Print Assumptions C41_other_types_refused.

(** ** C42: concurrency *)

(** [lin] orders the operations that took effect so that each got the answer
    it would get alone: every answered operation is in it, every operation in
    it was invoked, operations that did not overlap keep their order, and [m]
    is the memory after it. *)
Record linearizes {Mem Resp Op} (sem : Op -> Mem -> result (Mem * Resp)) (m0 : Mem)
  (tr : list (event Resp Op)) (lin : list (nat * Op * Resp)) (m : Mem) : Prop := {
  lz_alone : seq_exec sem m0 lin m;
  lz_once : NoDup (map tid lin);
  lz_invoked : forall i op r, In (i, op, r) lin -> In (EInv i op) tr;
  lz_answered : forall i r, In (ERes i r) tr -> exists op, In (i, op, r) lin;
  lz_order : forall i j r op tr1 tr2 tr3, tr = tr1 ++ ERes i r :: tr2 ++ EInv j op :: tr3 ->
      In j (map tid lin) -> exists a b, tid a = i /\ tid b = j /\ before a b lin }.

Section Runs.
  Context {C : Crypto}.
  (** The runs of the server: any number of connections, ticks and reloads, in
      any interleaving of their single memory accesses, a tree under
      construction passing through arbitrary [torn] states. *)
  Definition server_runs (p : permtable) (torn : Directory -> list Directory) (d0 : Directory)
    (tr : list (event (option Response) srv_op)) (s : state Directory (option Response) srv_op) : Prop :=
    reach (srv_code p torn) (srv_reader p) (srv_direct p) d0 tr s.
End Runs.

Theorem C42_linearizable : forall (C : Crypto) p torn d0 tr s, server_runs p torn d0 tr s ->
  NoDup (inv_tids _ _ tr) /\
  exists lin d, linearizes (srv_sem p) d0 tr lin d /\ (st_wr s = None -> st_mem s = d).
Proof.
  intros C p torn d0 tr s R.
  split; [eapply invoked_once; eauto using readers_pure, direct_is_code|].
  destruct (inv_reach _ _ _ _ _ _ (readers_pure p torn) (direct_is_code p torn) _ _ _ R) as (lin & m & I).
  destruct I as [Iseq Ind Ilin Idom Ires Iabs Iinv Iwr Ird Iin Iord]. exists lin, m. split.
  - constructor; auto.
    + eapply seq_exec_ext; [|exact Iseq]. intros op d. apply run_code.
    + intros i r H. destruct (Ires i r H) as [op K]. exists op. specialize (Ilin i). rewrite K in Ilin. exact Ilin.
    + intros i j r op tr1 tr2 tr3 E L. destruct (Iord i j r op tr1 tr2 tr3 E L) as (a & b & _ & _ & Ha & Hb & B). eauto.
  - intro E. rewrite E in Iwr. exact Iwr.
Qed.
Print Assumptions C42_linearizable.

(** The calls on the directory that an operation makes. *)
Definition dir_calls (p : permtable) (op : srv_op) : list dir_op :=
  match op with
  | OMsg addr msg r =>
      match accept p addr msg with
      | inr q => if Z.eqb (q_type q) RegistrationType
                 then match q_body q with WRegistration n k _ _ => [DRegister r n k] | _ => [] end else []
      | inl _ => []
      end
  | OTick => [DUpdate]
  | OReload (Some dl) => [DSetPolicies dl]
  | OReload None => []
  end.

Lemma sem_calls {C : Crypto} p op d d' resp : srv_sem p op d = Ok (d', resp) -> dir_run d (dir_calls p op) = Ok d'.
Proof.
  destruct op as [addr msg r| |[dl|]]; cbn [srv_sem dir_calls dir_run dir_step bind];
    try (intro H; injection H as <- <-; reflexivity).
  destruct (accept p addr msg) as [x|q]; cbn [dir_run]; [intro H; injection H as <- <-; reflexivity|].
  unfold HandleRequests. destruct (Z.eqb (q_type q) RegistrationType).
  { destruct (q_body q); cbn [dir_run dir_step bind]; try (intro H; injection H as <- <-; reflexivity).
    destruct (Register d r name key) as [[d1 x]|]; cbn [bind]; intro H; [injection H as <- <-; reflexivity|discriminate H]. }
  destruct (Z.eqb (q_type q) KeyLookupType).
  { destruct (q_body q); cbn [bind]; try (intro H; injection H as <- <-; reflexivity).
    destruct (KeyLookup d name); cbn [bind]; intro H; [injection H as <- <-; reflexivity|discriminate H]. }
  destruct (Z.eqb (q_type q) KeyLookupInEpochType).
  { destruct (q_body q); cbn [bind]; try (intro H; injection H as <- <-; reflexivity).
    destruct (KeyLookupInEpoch d name epoch); cbn [bind]; intro H; [injection H as <- <-; reflexivity|discriminate H]. }
  destruct (Z.eqb (q_type q) MonitoringType).
  { destruct (q_body q); cbn [bind]; try (intro H; injection H as <- <-; reflexivity).
    destruct (Monitor d name startEpoch endEpoch); cbn [bind]; intro H; [injection H as <- <-; reflexivity|discriminate H]. }
  cbn [bind]. intro H; injection H as <- <-; reflexivity.
Qed.

Definition calls_of (p : permtable) (lin : list (nat * srv_op * option Response)) : list dir_op :=
  flat_map (fun x => dir_calls p (snd (fst x))) lin.

Lemma seq_calls {C : Crypto} p d0 lin d : seq_exec (srv_sem p) d0 lin d -> dir_run d0 (calls_of p lin) = Ok d.
Proof.
  induction 1 as [|m i op r m' l m'' E S IH]; [reflexivity|]. unfold calls_of. cbn [flat_map fst snd].
  rewrite dir_run_app, (sem_calls _ _ _ _ _ E). exact IH.
Qed.

Lemma seq_split {Mem Resp Op} sem (m0 : Mem) (a b : list (nat * Op * Resp)) m :
  seq_exec sem m0 (a ++ b) m -> exists m1, seq_exec sem m0 a m1 /\ seq_exec sem m1 b m.
Proof.
  revert m0; induction a as [|x a IH]; intros m0 H; cbn [app] in *; [exists m0; split; [constructor|auto]|].
  inversion H; subst. destruct (IH _ H5) as (m1 & ? & ?). exists m1. split; auto. econstructor; eauto.
Qed.

Lemma NoDup_left {X} (a b : list X) : NoDup (a ++ b) -> NoDup a.
Proof.
  induction a as [|x a IH]; cbn [app]; intro H; [constructor|]. inversion H; subst. constructor; auto.
  intro K. apply H2. apply in_or_app; auto.
Qed.

(** Hence each answer is the one the directory of some sequential history
    gives, and everything proved about such histories applies to it. *)
Theorem C42_answers_from_a_history : forall (C : Crypto) dl0 vk sk size r1 r2 p torn d0 tr s,
  Directory_New dl0 vk sk size true r1 r2 = Ok d0 -> server_runs p torn d0 tr s ->
  forall i resp, In (ERes i resp) tr ->
  exists op done d d', In (EInv i op) tr /\
    dir_built dl0 vk sk size r1 r2 (calls_of p done) d /\ srv_sem p op d = Ok (d', resp) /\
    (forall j op' r', In (j, op', r') done -> In (EInv j op') tr /\ j <> i) /\ NoDup (map tid done) /\
    forall tr1 tr2 j r', tr = tr1 ++ ERes j r' :: tr2 -> In (EInv i op) tr2 -> exists op', In (j, op', r') done.
Proof.
  intros C dl0 vk sk size r1 r2 p torn d0 tr s N R i resp H.
  destruct (C42_linearizable C p torn d0 tr s R) as (ND & lin & m & [A B I W O] & _).
  destruct (W i resp H) as [op L]. apply in_split in L as (l1 & l2 & ->).
  destruct (seq_split _ _ _ _ _ A) as (d & S1 & S2). inversion S2; subst.
  exists op, l1, d, m'. split; [apply (I i op resp); apply in_or_app; right; left; auto|].
  split; [exists d0; split; [exact N|apply seq_calls; exact S1]|]. split; [assumption|].
  rewrite map_app in B. cbn [map tid fst] in B. pose proof (NoDup_remove_2 _ _ _ B) as NI.
  split; [|split].
  - intros j op' r' K. split; [apply (I j op' r'); apply in_or_app; auto|].
    intros ->. apply NI. apply in_or_app. left. apply in_map_iff. exists (i, op', r'). auto.
  - apply NoDup_remove_1 in B. apply NoDup_left in B. exact B.
  - intros tr1 tr2 j r' E K. apply in_split in K as (t2 & t3 & ->).
    destruct (O j i r' op tr1 t2 t3 E) as (a & b & Ha & Hb & BF).
    { rewrite map_app. apply in_or_app; right; left; auto. }
    destruct (W j r') as (op' & Lj). { rewrite E. apply in_or_app; right; left; auto. }
    exists op'. apply in_app_or in Lj as [Lj|Lj]; [exact Lj|exfalso].
    destruct BF as (x1 & x2 & x3 & E2).
    assert (NDl : NoDup (map tid (l1 ++ (i, op, resp) :: l2))) by (rewrite map_app; exact B).
    assert (Uniq : forall (l l' k k' : list (nat * srv_op * option Response)) u v,
       l ++ u :: k = l' ++ v :: k' -> tid u = tid v -> NoDup (map tid (l ++ u :: k)) -> l = l' /\ k = k').
    { clear. induction l as [|y l IH]; intros [|y' l'] k k' u v E T N; cbn [app] in E; injection E as E1 E2.
      - auto.
      - exfalso. cbn [app map] in N. inversion N; subst. apply H1. rewrite T. rewrite map_app. apply in_or_app; right; left; auto.
      - exfalso. cbn [app map] in N. inversion N; subst. apply H1. rewrite <- T. rewrite map_app. apply in_or_app; right; left; auto.
      - cbn [app map] in N. inversion N; subst. destruct (IH l' k k' u v E2 T H2). subst. auto. }
    replace (x1 ++ a :: x2 ++ b :: x3) with ((x1 ++ a :: x2) ++ b :: x3) in E2 by (rewrite <- app_assoc; reflexivity).
    destruct (Uniq _ _ _ _ _ _ E2 (eq_sym Hb) NDl) as [-> ->].
    (* j is in the first part and also in the second *)
    assert (J1 : In j (map tid (x1 ++ a :: x2))) by (rewrite map_app, in_app_iff; right; left; auto).
    assert (J2 : In j (map tid ((i, op, resp) :: x3))) by (apply in_map_iff; exists (j, op', r'); auto).
    rewrite map_app in NDl. clear -NDl J1 J2. induction (map tid (x1 ++ a :: x2)) as [|y l IH]; [destruct J1|].
    inversion NDl; subst. destruct J1 as [->|J1]; [apply H1; apply in_or_app; auto|auto].
Qed.
Print Assumptions C42_answers_from_a_history.

(** Nothing blocks for ever: as long as the process lives and some goroutine
    has something left to do, some goroutine can take a step that is not the
    arrival of a new operation. *)
Theorem C42_no_deadlock : forall (C : Crypto) p torn d0 tr s, server_runs p torn d0 tr s -> st_crashed s = false ->
  forall i, (forall op r, st_thr s i <> Sent op r) -> st_thr s i <> Absent ->
  exists e s', step _ _ _ (srv_code p torn) (srv_reader p) (srv_direct p) s e s' /\ forall j op, e <> Some (EInv j op).
Proof.
  intros C p torn d0 tr s R Cr i NS NA.
  eapply progress; eauto using readers_pure, direct_is_code.
  destruct (st_thr s i) as [|op|op q|op r|op r] eqn:E; [congruence|left; eauto|right; left; eauto|right; right; eauto|].
  exfalso. eapply NS; eauto.
Qed.
Print Assumptions C42_no_deadlock.

(** ** C55: no client message, tick or reload brings the process down. *)
Definition ticks (tr : list (event (option Response) srv_op)) : nat :=
  length (filter (fun e => match e with EInv _ OTick => true | _ => false end) tr).

Lemma calls_ticks p tr lin : NoDup (map tid lin) -> (forall i op (r : option Response), In (i, op, r) lin -> In (EInv i op) tr) ->
  dupdates (calls_of p lin) <= ticks tr.
Proof.
  intros N I.
  assert (E : dupdates (calls_of p lin) = length (filter (fun x => match snd (fst x) with OTick => true | _ => false end) lin)).
  { clear. induction lin as [|[[i op] r] l IH]; [reflexivity|]. unfold calls_of in *. cbn [flat_map fst snd].
    rewrite dupdates_app, IH. destruct op as [addr msg r'| |[dl|]]; cbn [filter snd fst dir_calls dupdates length]; try reflexivity.
    destruct (accept p addr msg) as [|q]; [reflexivity|]. destruct (Z.eqb _ _); [|reflexivity].
    destruct (q_body q); reflexivity. }
  rewrite E. unfold ticks.
  rewrite <- (map_length (fun x => @EInv (option Response) srv_op (tid x) OTick)).
  apply NoDup_incl_length.
  - clear I E. induction lin as [|[[i op] r] l IH]; cbn [filter map]; [constructor|].
    cbn [map] in N. inversion N; subst. destruct op; cbn [fst snd]; auto. cbn [map]. constructor; auto.
    intro K. apply in_map_iff in K as (x & Ex & Kx). injection Ex as Ex. apply filter_In in Kx as [Kx _].
    apply H1. cbn [tid fst]. apply in_map_iff. exists x. split; auto.
  - intros e K. apply in_map_iff in K as ([[i op] r] & <- & K). apply filter_In in K as [K T]. cbn [snd fst] in T.
    destruct op; try discriminate T. cbn [tid fst]. apply filter_In. split; [|reflexivity]. eapply I; eauto.
Qed.

Theorem C55_server_never_crashes : forall (C : Crypto), CryptoOk C ->
  forall dl0 vk sk size r1 r2 p torn d0 tr s,
  Directory_New dl0 vk sk size true r1 r2 = Ok d0 -> server_runs p torn d0 tr s ->
  (N.of_nat (ticks tr) < 2 ^ 64 - 1)%N -> st_crashed s = false.
Proof.
  intros C OK dl0 vk sk size r1 r2 p torn d0 tr s N R T. destruct (st_crashed s) eqn:Cr; [exfalso|reflexivity].
  destruct (crash_cause _ _ _ _ _ _ (readers_pure p torn) (direct_is_code p torn) _ _ _ R Cr)
    as (lin & m & i & op & S & ND & I & _ & _ & P).
  rewrite run_code in P.
  assert (S' : seq_exec (srv_sem p) d0 lin m) by (eapply seq_exec_ext; [|exact S]; intros; apply run_code).
  assert (B : dir_built dl0 vk sk size r1 r2 (calls_of p lin) m) by (exists d0; split; [exact N|apply seq_calls; exact S']).
  assert (F : few (calls_of p lin)).
  { unfold few. pose proof (calls_ticks p tr lin ND I). lia. }
  destruct op as [addr msg r| |[dl|]]; cbn [srv_sem] in P; try discriminate P.
  destruct (accept p addr msg) as [x|q]; [discriminate P|]. unfold HandleRequests in P.
  destruct (Z.eqb (q_type q) RegistrationType).
  { destruct (q_body q); cbn [bind] in P; try discriminate P.
    destruct (C25_no_crash C OK _ _ _ _ _ _ _ _ B F r name key 0 0)%N as ((d' & x & E) & _). rewrite E in P. discriminate P. }
  destruct (Z.eqb (q_type q) KeyLookupType).
  { destruct (q_body q); cbn [bind] in P; try discriminate P.
    destruct (C25_no_crash C OK _ _ _ _ _ _ _ _ B F r name name 0 0)%N as (_ & (x & E) & _). rewrite E in P. discriminate P. }
  destruct (Z.eqb (q_type q) KeyLookupInEpochType).
  { destruct (q_body q); cbn [bind] in P; try discriminate P.
    destruct (C25_no_crash C OK _ _ _ _ _ _ _ _ B F r name name epoch 0)%N as (_ & _ & (x & E) & _). rewrite E in P. discriminate P. }
  destruct (Z.eqb (q_type q) MonitoringType).
  { destruct (q_body q); cbn [bind] in P; try discriminate P.
    destruct (C25_no_crash C OK _ _ _ _ _ _ _ _ B F r name name startEpoch endEpoch)%N as (_ & _ & _ & (x & E)). rewrite E in P. discriminate P. }
  discriminate P.
Qed.
Print Assumptions C55_server_never_crashes.

(** ** C43: the wire format *)

(** Each request of the four kinds a server accepts arrives as it was sent, if
    its name is UTF-8 and its epochs are uint64 values. *)
Theorem C43_requests_round_trip : forall b, wf_body b ->
  UnmarshalRequest (MarshalRequest (type_of b) b) = Some (mkReq (type_of b) b).
Proof. exact request_round_trip. Qed.
Print Assumptions C43_requests_round_trip.

(** The client's message constructors, for every name and key: the name that
    arrives is the UTF-8 text with each ill-formed part replaced by U+FFFD; it
    is the name given exactly when that was UTF-8. *)
Lemma keylookup_msg name : UnmarshalRequest (CreateKeyLookupMsg name) = Some (mkReq KeyLookupType (WKeyLookup (utf8_coerce name))).
Proof.
  unfold CreateKeyLookupMsg, MarshalRequest. rewrite UnmarshalRequest_shape; [|unfold int64; split; reflexivity || discriminate|discriminate].
  reflexivity.
Qed.
Lemma registration_msg name k : UnmarshalRequest (CreateRegistrationMsg name k) =
  Some (mkReq RegistrationType (WRegistration (utf8_coerce name) k false false)).
Proof.
  unfold CreateRegistrationMsg, MarshalRequest. rewrite UnmarshalRequest_shape; [|unfold int64; split; reflexivity || discriminate|discriminate].
  unfold dec_body. change (Z.eqb RegistrationType RegistrationType) with true. cbn iota. cbn [enc_body app].
  cbn [dec_struct dec_members f_registration]. keys. unfold enc_string at 1. cbn [dec_string obind].
  cbn [dec_members f_registration]. keys. rewrite dec_bytes_enc. cbn [obind dec_members option_map].
  reflexivity.
Qed.
Theorem C43_client_messages : forall name k,
  UnmarshalRequest (CreateRegistrationMsg name k) = Some (mkReq RegistrationType (WRegistration (utf8_coerce name) k false false)) /\
  UnmarshalRequest (CreateKeyLookupMsg name) = Some (mkReq KeyLookupType (WKeyLookup (utf8_coerce name))) /\
  (utf8_coerce name = name <-> utf8 name).
Proof.
  intros name k. split; [apply registration_msg|]. split; [apply keylookup_msg|].
  split; [intro H; rewrite <- H; apply utf8_coerce_valid|apply utf8_coerce_id].
Qed.
Print Assumptions C43_client_messages.

(** So two different names can produce the very same message. *)
Theorem C43_names_collide_refuted : exists n1 n2, n1 <> n2 /\
  forall k, CreateRegistrationMsg n1 k = CreateRegistrationMsg n2 k /\ CreateKeyLookupMsg n1 = CreateKeyLookupMsg n2.
Proof. exists [x61; xff], [x61; xfe]. split; [discriminate|]. intro k. split; reflexivity. Qed.
Print Assumptions C43_names_collide_refuted.

(** Auditing and STR-history requests lose their type on the way: what arrives
    is an untyped value, for every such request. *)
Theorem C43_audit_requests_untyped_refuted : forall h s e,
  UnmarshalRequest (MarshalRequest AuditType (WAuditing h s e)) = Some (mkReq AuditType (WOther (enc_body (WAuditing h s e)))) /\
  UnmarshalRequest (MarshalRequest STRType (WSTRHistory s e)) = Some (mkReq STRType (WOther (enc_body (WSTRHistory s e)))).
Proof.
  intros h s e. unfold MarshalRequest. rewrite !UnmarshalRequest_shape;
    try discriminate; try (unfold int64; split; reflexivity || discriminate).
Qed.
Print Assumptions C43_audit_requests_untyped_refuted.

(** Responses: any response whose numbers are in range, whose hashes have 32
    bytes and whose policy strings are UTF-8. *)
Theorem C43_responses_round_trip : forall t r,
  int64 (r_error r) -> (forall df, r_df r = Some df -> wf_df df /\ answers t df) ->
  (r_df r = None -> is_error (r_error r) = true) ->
  UnmarshalResponse t (Some (MarshalResponse r)) = Ok r.
Proof.
  intros t r E D N. destruct (r_df r) as [df|] eqn:X.
  - destruct (D df eq_refl) as [W A]. eapply response_round_trip; eauto.
  - destruct r as [e o]; cbn [r_df r_error] in *. subst o. apply error_round_trip. auto.
Qed.
Print Assumptions C43_responses_round_trip.

(** In particular every answer a directory gives, after any history. *)
Theorem C43_directory_answers_arrive : forall (C : Crypto), CryptoOk C ->
  forall dl0 vk sk size r1 r2 ops d, dir_built dl0 vk sk size r1 r2 ops d -> few ops -> deadlines_ok dl0 ops ->
  forall r b d' resp, wf_body b -> directory_answer d r b = Ok (d', resp) ->
  UnmarshalResponse (type_of b) (Some (MarshalResponse resp)) = Ok resp.
Proof.
  intros C OK dl0 vk sk size r1 r2 ops d B F D r b d' resp W A.
  assert (F' : (N.of_nat (dupdates ops) < two64)%N) by (unfold few, two64 in *; lia).
  destruct (built_dir_inv OK _ _ _ _ _ _ _ _ B F') as (pops & hist & I & _ & _).
  destruct b; try (destruct W; fail); cbn [directory_answer type_of] in *.
  - eapply register_travels; eauto.
  - destruct (KeyLookup d name) as [x|] eqn:E; cbn [bind] in A; [injection A as <- <-|discriminate A]. eapply keylookup_travels; eauto.
  - destruct (KeyLookupInEpoch d name epoch) as [x|] eqn:E; cbn [bind] in A; [injection A as <- <-|discriminate A]. eapply inepoch_travels; eauto.
  - destruct (Monitor d name startEpoch endEpoch) as [x|] eqn:E; cbn [bind] in A; [injection A as <- <-|discriminate A]. eapply monitor_travels; eauto.
Qed.
Print Assumptions C43_directory_answers_arrive.

(** Decoding a response never crashes for the five kinds of request that have
    one, whatever the bytes; it does for [AuditType]. *)
Theorem C43_decoding_total : forall t msg,
  In t [RegistrationType; KeyLookupType; KeyLookupInEpochType; MonitoringType; STRType] ->
  exists r, UnmarshalResponse t msg = Ok r.
Proof.
  intros t msg H. unfold UnmarshalResponse.
  destruct (obind msg _) as [[e [raw|]]|]; [|unfold Validate; cbn [r_error r_df]; destruct (is_error e); cbn [bind]; eauto|eauto].
  assert (P : exists r, match dec_ptr f_proof (mkDP [] [] None) (Some (mkDP [] [] None)) raw with
    | None => Ok (mkResp ErrMalformedMessage None) | Some p => Ok (mkResp e (Some (DProof p))) end = Ok r)
    by (destruct (dec_ptr f_proof _ _ raw); eauto).
  cbn [In] in H. destruct H as [<-|[<-|[<-|[<-|[<-|[]]]]]]; try exact P.
  change (Z.eqb STRType RegistrationType || Z.eqb STRType KeyLookupType || Z.eqb STRType KeyLookupInEpochType || Z.eqb STRType MonitoringType) with false.
  change (Z.eqb STRType STRType) with true. cbn iota. destruct (dec_ptr f_history _ _ raw); eauto.
Qed.
Print Assumptions C43_decoding_total.
Theorem C43_audit_response_crashes_refuted : exists msg, UnmarshalResponse AuditType (Some msg) = Panic.
Proof. exists (MarshalResponse (NewSTRHistoryRange [])). reflexivity. Qed.
Print Assumptions C43_audit_response_crashes_refuted.
(** And a response with an explicit null where the proof should be decodes to
    one that [Validate] crashes on. *)
Theorem C43_null_proof_crashes_refuted : exists r,
  UnmarshalResponse KeyLookupType (Some null_response) = Ok r /\ Validate r = Panic.
Proof. eexists. split; reflexivity. Qed.
Print Assumptions C43_null_proof_crashes_refuted.

(** ** C44: the epoch timer *)

(** Whatever happens at run time, the time from the end of an automatic update
    to the start of the next is at least the interval fixed when the server was
    made; with no delays the updates are exactly that far apart. *)
Theorem C44_spacing : forall tm t0 l i s1 e1 s2 e2, epoch_updates tm t0 l ->
  nth_error l i = Some (s1, e1) -> nth_error l (S i) = Some (s2, e2) ->
  (s1 <= e1)%Z /\ (e1 + Z.max 0 (tm_duration tm) <= s2)%Z.
Proof.
  intros tm t0 l i s1 e1 s2 e2 H. unfold epoch_updates in H. revert H i.
  generalize (t0 + Z.max 0 (tm_duration tm))%Z. intros fire H. induction H as [|fire a b l A B H IH]; intros i N1 N2.
  - destruct i; discriminate N1.
  - destruct i as [|i]; cbn [nth_error] in *.
    + injection N1 as <- <-. destruct l as [|[x y] l]; [discriminate N2|]. cbn [nth_error] in N2. injection N2 as -> ->.
      inversion H; subst. split; auto.
    + eapply IH; eauto.
Qed.
Print Assumptions C44_spacing.
Theorem C44_exact_without_delay : forall tm t0 n, (0 <= tm_duration tm)%Z ->
  epoch_updates tm t0 (map (fun k => let t := (t0 + Z.of_nat k * tm_duration tm)%Z in (t, t)) (seq 1 n)).
Proof.
  intros tm t0 n P. unfold epoch_updates. rewrite Z.max_r by auto.
  assert (G : forall n k, epoch_loop tm (t0 + Z.of_nat k * tm_duration tm)%Z
     (map (fun k => let t := (t0 + Z.of_nat k * tm_duration tm)%Z in (t, t)) (seq k n))).
  { induction n0 as [|n0 IH]; intro k; cbn [seq map]; [constructor|]. constructor; try lia.
    rewrite Z.max_r by auto. replace (t0 + Z.of_nat k * tm_duration tm + tm_duration tm)%Z with (t0 + Z.of_nat (S k) * tm_duration tm)%Z by lia.
    apply IH. }
  replace (t0 + tm_duration tm)%Z with (t0 + Z.of_nat 1 * tm_duration tm)%Z by lia. apply G.
Qed.
Print Assumptions C44_exact_without_delay.

(** The interval is the top-level deadline of the configuration, in seconds,
    and no message, tick or reload changes it. *)
Theorem C44_interval_fixed : forall (C : Crypto) conf path f r1 r2 sv f' ops sv',
  NewConiksServer conf path f r1 r2 = Ok (sv, f') -> sv_run sv ops = Ok sv' ->
  (cf_deadline conf < 2 ^ 63 / 1000000000)%N ->
  tm_duration (sv_timer sv') = (Z.of_N (cf_deadline conf) * 1000000000)%Z.
Proof.
  intros C conf path f r1 r2 sv f' ops sv' N R L.
  assert (T : forall ops sv, sv_run sv ops = Ok sv' -> sv_timer sv' = sv_timer sv).
  { clear. induction ops as [|op ops IH]; intros sv R; cbn [sv_run] in R; [injection R as <-; reflexivity|].
    unfold sv_step in R. destruct (srv_sem (sv_perms sv) op (sv_dir sv)) as [[d x]|]; cbn [bind] in R; [|discriminate R].
    rewrite (IH _ R). reflexivity. }
  rewrite (T _ _ R). unfold NewConiksServer in N. destruct (Directory_New _ _ _ _ _ _ _) as [d|]; cbn [bind] in N; [|discriminate N].
  injection N as <- <-. cbn [sv_timer NewEpochTimer tm_duration]. unfold toDuration.
  change (2 ^ 63 / 1000000000)%N with 9223372036%N in L.
  rewrite Z.mod_small; lia.
Qed.
Print Assumptions C44_interval_fixed.

(** It is not the deadline announced to clients: a server made from a
    configuration of [NewConfig], whatever deadline its policies state, has
    interval 0, before and after any reload. *)
Theorem C44_announced_deadline_refuted : forall (C : Crypto), CryptoOk C ->
  forall addrs hist pol path f r1 r2 sv f' ops sv',
  NewConiksServer (NewConfig addrs hist pol) path f r1 r2 = Ok (sv, f') -> sv_run sv ops = Ok sv' ->
  EpochDeadline (sv_dir sv) = pc_deadline pol /\ tm_duration (sv_timer sv') = 0%Z.
Proof.
  intros C OK addrs hist pol path f r1 r2 sv f' ops sv' N R. split.
  - unfold NewConiksServer in N. cbn [NewConfig cf_pol cf_hist] in N.
    destruct (Directory_New _ _ _ _ _ _ _) as [d|] eqn:E; cbn [bind] in N; [|discriminate N].
    injection N as <- <-. cbn [sv_dir].
    assert (B : dir_built (pc_deadline pol) (pc_vrf pol) (pc_sign pol) hist r1 r2 [] d) by (exists d; split; [exact E|reflexivity]).
    rewrite (deadline_eq C OK _ _ _ _ _ _ _ _ B); [reflexivity|]. unfold few. reflexivity.
  - rewrite (C44_interval_fixed C _ _ _ _ _ _ _ _ _ N R); reflexivity.
Qed.
Print Assumptions C44_announced_deadline_refuted.

(** ** C56: the saved initial STR *)

(** When the file did not exist, what an auditor loads from it is the server's
    first STR; no other file changes. *)
Theorem C56_init_str_saved : forall (C : Crypto), CryptoOk C -> forall conf path f r1 r2 sv f',
  NewConiksServer conf path f r1 r2 = Ok (sv, f') -> (pc_deadline (cf_pol conf) < 2 ^ 64)%N -> f path = None ->
  LoadInitSTR f' path = Ok (Some (LatestSTR (sv_dir sv))) /\
  (forall path', path' <> path -> f' path' = f path').
Proof.
  intros C OK conf path f r1 r2 sv f' N L E. unfold NewConiksServer in N.
  destruct (Directory_New _ _ _ _ _ _ _) as [d|] eqn:ED; cbn [bind] in N; [|discriminate N].
  injection N as <- <-. cbn [sv_dir]. unfold SaveSTR. rewrite E. cbn [fst].
  assert (B : dir_built (pc_deadline (cf_pol conf)) (pc_vrf (cf_pol conf)) (pc_sign (cf_pol conf)) (cf_hist conf) r1 r2 [] d)
    by (exists d; split; [exact ED|reflexivity]).
  assert (F' : (N.of_nat (dupdates []) < two64)%N) by reflexivity.
  destruct (built_dir_inv OK _ _ _ _ _ _ _ _ B F') as (pops & hist & I & _ & _).
  assert (D : deadlines_ok (pc_deadline (cf_pol conf)) []) by (split; [exact L|intros ? []]).
  pose proof (latest_wf OK _ _ _ _ _ _ _ _ I F' D) as W.
  split.
  - unfold LoadInitSTR. rewrite beq_refl. pose proof (dirstr_rt (Some (LatestSTR d)) W) as RT. cbn [enc_ptr] in RT.
    assert (X : dec_ptr f_dirstr zero_dirstr (Some zero_dirstr) (enc_dirstr (LatestSTR d)) = dec_ptr f_dirstr zero_dirstr None (enc_dirstr (LatestSTR d))) by reflexivity.
    rewrite X, RT. cbn [LatestSTR NewDirSTR d_body].
    pose proof (latestEpoch_eq _ _ _ _ _ _ _ _ I) as LE. unfold latestEpoch in LE. rewrite LE. reflexivity.
  - intros path' H. destruct (beq_spec path' path); congruence.
Qed.
Print Assumptions C56_init_str_saved.

(** When the file exists, it is left alone and nobody is told. *)
Theorem C56_existing_file_kept : forall (C : Crypto) conf path f r1 r2 sv f' j,
  NewConiksServer conf path f r1 r2 = Ok (sv, f') -> f path = Some j -> f' = f.
Proof.
  intros C conf path f r1 r2 sv f' j N E. unfold NewConiksServer in N.
  destruct (Directory_New _ _ _ _ _ _ _) as [d|]; cbn [bind] in N; [|discriminate N].
  injection N as <- <-. unfold SaveSTR. rewrite E. reflexivity.
Qed.
Print Assumptions C56_existing_file_kept.

(** So after a restart with the same configuration the file need not belong to
    the running server: an auditor loads an STR that is not the server's. *)
Definition toy_conf : Config := NewConfig [mkAddress 0 true; mkAddress 1 false] 8 (mkPolicyConf 60 [x11] [x10]).
Definition two_starts : result (option DirSTR * DirSTR) :=
  do (sv1, f1) <- @NewConiksServer ToyCrypto toy_conf [x2f] (fun _ => None) (Some [x07]) (Some [x08]);
  do (sv2, f2) <- @NewConiksServer ToyCrypto toy_conf [x2f] f1 (Some [x09]) (Some [x0a]);
  do s <- LoadInitSTR f2 [x2f]; Ok (s, LatestSTR (sv_dir sv2)).
Theorem C56_stale_after_restart_refuted : exists sv1 f1 sv2 f2 s,
  @NewConiksServer ToyCrypto toy_conf [x2f] (fun _ => None) (Some [x07]) (Some [x08]) = Ok (sv1, f1) /\
  @NewConiksServer ToyCrypto toy_conf [x2f] f1 (Some [x09]) (Some [x0a]) = Ok (sv2, f2) /\
  LoadInitSTR f2 [x2f] = Ok (Some s) /\ sig_of s <> sig_of (LatestSTR (sv_dir sv2)).
Proof.
  assert (H : match two_starts with Ok (Some s, s2) => beq (sig_of s) (sig_of s2) | _ => true end = false)
    by (vm_compute; reflexivity).
  unfold two_starts in H.
  destruct (@NewConiksServer ToyCrypto toy_conf [x2f] (fun _ => None) (Some [x07]) (Some [x08])) as [[sv1 f1]|] eqn:E1; [|discriminate H].
  cbn [bind] in H. destruct (@NewConiksServer ToyCrypto toy_conf [x2f] f1 (Some [x09]) (Some [x0a])) as [[sv2 f2]|] eqn:E2; [|discriminate H].
  cbn [bind] in H. destruct (LoadInitSTR f2 [x2f]) as [[s|]|] eqn:E3; cbn [bind] in H; [|discriminate H|discriminate H].
  exists sv1, f1, sv2, f2, s. split; [reflexivity|]. split; [exact E2|]. split; [exact E3|].
  intro E. rewrite E, beq_refl in H. discriminate H.
Qed.
Print Assumptions C56_stale_after_restart_refuted.

(** ** Concrete cases *)

(** A registration and a lookup of the same name and an epoch tick, their
    accesses interleaved as finely as the lock allows; while it is being
    updated the directory passes through an empty one. *)
Definition toy_dir0 : result Directory := @Directory_New ToyCrypto 60 [x11] [x10] 8 true (Some [x07]) (Some [x08]).
Definition toy_msg (b : body) : option json := Some (MarshalRequest (type_of b) b).
Definition toy_schedule : list (action srv_op) :=
  [Invoke _ 0 (OMsg 0 (toy_msg (WRegistration [x61] [x62] false false)) (Some [x09]));
   Invoke _ 1 (OMsg 1 (toy_msg (WKeyLookup [x61])) None);
   Invoke _ 2 (OMsg 1 (toy_msg (WRegistration [x63] [x62] false false)) (Some [x09]));
   Invoke _ 3 OTick; Move _ 0; Move _ 0; Move _ 0; Move _ 0]
  ++ flat_map (fun _ => [Move _ 3; Move _ 2; Move _ 1; Move _ 0]) (seq 0 60)
  ++ [Invoke _ 4 (OMsg 0 (toy_msg (WKeyLookup [x61])) None)]
  ++ flat_map (fun _ => [Move _ 4]) (seq 0 60).
Definition toy_run : result (list (event (option Response) srv_op) * state Directory (option Response) srv_op) :=
  do d0 <- toy_dir0;
  Ok (exec _ _ _ (srv_code (C := ToyCrypto) (permissions (cf_addrs toy_conf)) (fun d => [mkDirectory (dr_pad d) false [] (dr_pol d)]))
        (srv_reader (permissions (cf_addrs toy_conf))) (srv_direct (permissions (cf_addrs toy_conf))) (initial d0) [] toy_schedule).
Definition response_code (tr : list (event (option Response) srv_op)) (i : nat) : list Z :=
  flat_map (fun e => match e with ERes j (Some r) => if Nat.eqb i j then [r_error r] else [] | _ => [] end) tr.
Example C42_case : exists d0 tr s,
  toy_dir0 = Ok d0 /\ @server_runs ToyCrypto (permissions (cf_addrs toy_conf)) (fun d => [mkDirectory (dr_pad d) false [] (dr_pol d)]) d0 tr s /\
  response_code tr 0 = [ReqSuccess] /\ response_code tr 1 = [ReqSuccess] /\ response_code tr 2 = [ErrMalformedMessage] /\
  response_code tr 4 = [ReqSuccess] /\ In (ERes 3 None) tr /\ ticks tr = 1 /\ st_crashed s = false.
Proof.
  assert (H : match toy_run with
    | Ok (tr, s) => (match response_code tr 0, response_code tr 1, response_code tr 2, response_code tr 4 with
                     | [a], [b], [c], [d] => Z.eqb a ReqSuccess && Z.eqb b ReqSuccess && Z.eqb c ErrMalformedMessage && Z.eqb d ReqSuccess
                     | _, _, _, _ => false end) && existsb (fun e => match e with ERes 3 None => true | _ => false end) tr
                     && Nat.eqb (ticks tr) 1 && negb (st_crashed s)
    | Panic => false end = true) by (vm_compute; reflexivity).
  unfold toy_run in H. destruct toy_dir0 as [d0|] eqn:E; [|discriminate H]. cbn [bind] in H.
  pose proof (exec_reach Directory (option Response) srv_op
     (srv_code (C := ToyCrypto) (permissions (cf_addrs toy_conf)) (fun d => [mkDirectory (dr_pad d) false [] (dr_pol d)]))
     (srv_reader (permissions (cf_addrs toy_conf))) (srv_direct (permissions (cf_addrs toy_conf))) d0 toy_schedule _ _ (r_init _ _ _ _ _ _ d0)) as R.
  destruct (exec _ _ _ _ _ _ _ _ _) as [tr s]. cbn [fst snd] in R. exists d0, tr, s.
  split; [reflexivity|]. split; [exact R|].
  destruct (response_code tr 0) as [|a [|? ?]]; try discriminate H.
  destruct (response_code tr 1) as [|b [|? ?]]; try discriminate H.
  destruct (response_code tr 2) as [|c [|? ?]]; try discriminate H.
  destruct (response_code tr 4) as [|d [|? ?]]; try discriminate H.
  rewrite !andb_true_iff, !Z.eqb_eq, Nat.eqb_eq, negb_true_iff in H.
  destruct H as (((((( -> & -> ) & -> ) & -> ) & X) & T) & Cr).
  repeat (split; [reflexivity|]). split; [|split; assumption].
  apply existsb_exists in X as (e & I & Q). destruct e as [|[|[|[|[|?]]]] [?|]]; try discriminate Q. exact I.
Qed.

(** A configuration as in C41, requests as in C41 and C43. *)
Example C41_case : distinct_addrs (cf_addrs toy_conf) /\ wf_body (WRegistration [x61] [x62] false false) /\ wf_body (WMonitoring [xc3; xa9] 0 3).
Proof.
  split; [repeat constructor; cbn; intuition congruence|]. split; [cbn; repeat constructor|].
  cbn [wf_body]. split; [|split; reflexivity]. apply u_2; [reflexivity|reflexivity|constructor].
Qed.
Example C44_case : exists sv f, @NewConiksServer ToyCrypto toy_conf [x2f] (fun _ => None) (Some [x07]) (Some [x08]) = Ok (sv, f) /\
  (cf_deadline toy_conf < 2 ^ 63 / 1000000000)%N /\ (pc_deadline (cf_pol toy_conf) = 60)%N.
Proof.
  destruct (@NewConiksServer ToyCrypto toy_conf [x2f] (fun _ => None) (Some [x07]) (Some [x08])) as [[sv f]|] eqn:E.
  - exists sv, f. split; [reflexivity|]. split; reflexivity.
  - exfalso. assert (H : match @NewConiksServer ToyCrypto toy_conf [x2f] (fun _ => None) (Some [x07]) (Some [x08]) with Ok _ => true | Panic => false end = true)
      by (vm_compute; reflexivity). rewrite E in H. discriminate H.
Qed.
