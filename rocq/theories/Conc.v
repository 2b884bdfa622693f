(** Model of the concurrent server loop, independent of what the handlers do:
    application/serverbase.go:195-291 ([acceptClient], [EpochUpdate],
    [HotReload]) around one [sync.RWMutex] (serverbase.go:62).

    A handler is a program that reads and writes the shared memory step by
    step; other goroutines may run between any two of its steps.  What keeps
    them apart is only the lock. *)
From Coq Require Import List Lia Bool Arith Permutation.
From Verif Require Import Base.
Import ListNotations.

Section Conc.
  Variables (Mem Resp Op : Type).

  (** A handler's remaining work.  [Abort]: a Go panic; nothing recovers it, so
      the whole process dies. *)
  (** sync.RWMutex as used by application/serverbase.go:56-70 and :195-291 *)
  Inductive prog :=
  | Ret (r : Resp)
  | Abort
  | GetM (k : Mem -> prog)
  | PutM (f : Mem -> Mem) (k : prog).

  (** Running a handler alone. *)
  (** sync.RWMutex as used by application/serverbase.go:56-70 and :195-291 *)
  Fixpoint run (p : prog) (m : Mem) : result (Mem * Resp) :=
    match p with
    | Ret r => Ok (m, r)
    | Abort => Panic
    | GetM k => run (k m) m
    | PutM f k => run k (f m)
    end.

  (** sync.RWMutex as used by application/serverbase.go:56-70 and :195-291 *)
  Fixpoint write_free (p : prog) : Prop :=
    match p with
    | Ret _ | Abort => True
    | GetM k => forall m, write_free (k m)
    | PutM _ _ => False
    end.

  (** The handler code of each operation, and whether serverbase.go:216-233
      takes the read lock for it (everything else takes the write lock, as do
      serverbase.go:271 and 286). *)
  Variables (code : Op -> prog) (reader : Op -> bool).
  (** Operations answered without touching lock or memory (undecodable or
      unacceptable messages, serverbase.go:208-214), with their answer. *)
  Variable direct : Op -> option Resp.

  (** Where a goroutine stands: not started; waiting for the lock; inside the
      critical section; lock released, answer not yet sent; answer sent. *)
  (** sync.RWMutex as used by application/serverbase.go:56-70 and :195-291 *)
  Inductive phase :=
  | Absent
  | Ready (op : Op)
  | Inside (op : Op) (p : prog)
  | Released (op : Op) (r : Resp)
  | Sent (op : Op) (r : Resp).

  (** The RWMutex: the goroutine holding the write lock and those holding the
      read lock.  (Go's lock stores counts; who holds it is ghost state.  Go
      also makes new readers wait behind a waiting writer: fewer schedules
      than here.) *)
  (** sync.RWMutex as used by application/serverbase.go:56-70 and :195-291 *)
  Record state := mkState {
    st_mem : Mem; st_wr : option nat; st_rd : list nat;
    st_thr : nat -> phase; st_crashed : bool }.

  (** sync.RWMutex as used by application/serverbase.go:56-70 and :195-291 *)
  Definition upd (f : nat -> phase) (i : nat) (x : phase) : nat -> phase :=
    fun j => if Nat.eqb j i then x else f j.

  (** What a client (or the timer) can see. *)
  (** sync.RWMutex as used by application/serverbase.go:56-70 and :195-291 *)
  Inductive event :=
  | EInv (i : nat) (op : Op)
  | ERes (i : nat) (r : Resp).

  (** sync.RWMutex as used by application/serverbase.go:56-70 and :195-291 *)
  Definition initial (m0 : Mem) : state := mkState m0 None [] (fun _ => Absent) false.

  (** sync.RWMutex as used by application/serverbase.go:56-70 and :195-291 *)
  Inductive step : state -> option event -> state -> Prop :=
  | s_invoke m w rd thr i op : thr i = Absent ->
      step (mkState m w rd thr false) (Some (EInv i op))
           (mkState m w rd (upd thr i (Ready op)) false)
  | s_direct m w rd thr i op r : thr i = Ready op -> direct op = Some r ->  (* :208-214 *)
      step (mkState m w rd thr false) None
           (mkState m w rd (upd thr i (Released op r)) false)
  | s_rlock m rd thr i op : thr i = Ready op -> direct op = None -> reader op = true ->    (* RLock, :218 *)
      step (mkState m None rd thr false) None
           (mkState m None (i :: rd) (upd thr i (Inside op (code op))) false)
  | s_lock m thr i op : thr i = Ready op -> direct op = None -> reader op = false ->       (* Lock, :220 *)
      step (mkState m None [] thr false) None
           (mkState m (Some i) [] (upd thr i (Inside op (code op))) false)
  | s_get m w rd thr i op k : thr i = Inside op (GetM k) ->
      step (mkState m w rd thr false) None
           (mkState m w rd (upd thr i (Inside op (k m))) false)
  | s_put m w rd thr i op f k : thr i = Inside op (PutM f k) ->
      step (mkState m w rd thr false) None
           (mkState (f m) w rd (upd thr i (Inside op k)) false)
  | s_abort m w rd thr i op : thr i = Inside op Abort ->
      step (mkState m w rd thr false) None (mkState m w rd thr true)
  | s_runlock m w rd thr i op r : thr i = Inside op (Ret r) -> reader op = true ->  (* :229 *)
      step (mkState m w rd thr false) None
           (mkState m w (remove Nat.eq_dec i rd) (upd thr i (Released op r)) false)
  | s_unlock m w rd thr i op r : thr i = Inside op (Ret r) -> reader op = false ->  (* :231 *)
      step (mkState m w rd thr false) None
           (mkState m None rd (upd thr i (Released op r)) false)
  | s_reply m w rd thr i op r : thr i = Released op r ->               (* :241-250 *)
      step (mkState m w rd thr false) (Some (ERes i r))
           (mkState m w rd (upd thr i (Sent op r)) false).

  (** sync.RWMutex as used by application/serverbase.go:56-70 and :195-291 *)
  Definition opt_list {X} (o : option X) : list X := match o with Some x => [x] | None => [] end.

  (** sync.RWMutex as used by application/serverbase.go:56-70 and :195-291 *)
  Inductive reach (m0 : Mem) : list event -> state -> Prop :=
  | r_init : reach m0 [] (initial m0)
  | r_step tr s e s' : reach m0 tr s -> step s e s' -> reach m0 (tr ++ opt_list e) s'.

  (** ** Specification: sequential executions *)
  (** no line of its own in /repo: specification and invariant *)
  Inductive seq_exec (sem : Op -> Mem -> result (Mem * Resp)) : Mem -> list (nat * Op * Resp) -> Mem -> Prop :=
  | q_nil m : seq_exec sem m [] m
  | q_cons m i op r m' l m'' : sem op m = Ok (m', r) -> seq_exec sem m' l m'' ->
      seq_exec sem m ((i, op, r) :: l) m''.

  (** no line of its own in /repo: specification and invariant *)
  Definition tid (x : nat * Op * Resp) : nat := fst (fst x).
  (** no line of its own in /repo: specification and invariant *)
  Definition before {X} (a b : X) (l : list X) : Prop := exists l1 l2 l3, l = l1 ++ a :: l2 ++ b :: l3.

  (** ** Invariant *)
  Hypothesis readers_write_free : forall op, reader op = true -> write_free (code op).
  Hypothesis direct_code : forall op r, direct op = Some r -> code op = Ret r.

  (** no line of its own in /repo: specification and invariant *)
  Definition in_lin (lin : list (nat * Op * Resp)) (i : nat) (ph : phase) : Prop :=
    match ph with
    | Absent | Ready _ | Inside _ _ => ~ In i (map tid lin)
    | Released op r | Sent op r => In (i, op, r) lin
    end.

  (** no line of its own in /repo: specification and invariant *)
  Record inv (m0 : Mem) (tr : list event) (s : state) (lin : list (nat * Op * Resp)) (m : Mem) : Prop := {
    i_seq : seq_exec (fun op => run (code op)) m0 lin m;
    i_nodup : NoDup (map tid lin);
    i_lin : forall i, in_lin lin i (st_thr s i);
    i_dom : forall i op r, In (i, op, r) lin -> In (EInv i op) tr;
    i_res : forall i r, In (ERes i r) tr -> exists op, st_thr s i = Sent op r;
    i_abs : forall i, (forall op, ~ In (EInv i op) tr) <-> st_thr s i = Absent;
    i_inv : forall i op p, st_thr s i = Ready op \/ st_thr s i = Inside op p -> In (EInv i op) tr;
    i_wr : match st_wr s with
           | None => st_mem s = m
           | Some i => st_rd s = [] /\ exists op p, st_thr s i = Inside op p /\ reader op = false /\
                       run p (st_mem s) = run (code op) m
           end;
    i_rd : forall i, In i (st_rd s) -> exists op p, st_thr s i = Inside op p /\ reader op = true;
    i_in : forall i op p, st_thr s i = Inside op p ->
             (reader op = true -> In i (st_rd s) /\ write_free p /\ run p m = run (code op) m) /\
             (reader op = false -> st_wr s = Some i);
    i_order : forall i j ri op tr1 tr2 tr3, tr = tr1 ++ ERes i ri :: tr2 ++ EInv j op :: tr3 ->
             In j (map tid lin) -> exists a b, In a lin /\ In b lin /\ tid a = i /\ tid b = j /\ before a b lin
  }.

  Lemma upd_same f i x : upd f i x i = x.
  Proof. unfold upd. rewrite Nat.eqb_refl. reflexivity. Qed.
  Lemma upd_other f i x j : j <> i -> upd f i x j = f j.
  Proof. intro H. unfold upd. apply Nat.eqb_neq in H. rewrite H. reflexivity. Qed.

  Lemma seq_exec_snoc sem m0 lin m i op m' r :
    seq_exec sem m0 lin m -> sem op m = Ok (m', r) -> seq_exec sem m0 (lin ++ [(i, op, r)]) m'.
  Proof. induction 1; intros; simpl; econstructor; eauto. constructor. Qed.

  Lemma write_free_run p m x : write_free p -> run p m = Ok x -> fst x = m.
  Proof.
    revert m; induction p; intros m W R; simpl in *; try discriminate; try tauto.
    - injection R as <-; reflexivity.
    - eapply H; eauto.
  Qed.

  Lemma NoDup_snoc {X} (l : list X) a : NoDup l -> ~ In a l -> NoDup (l ++ [a]).
  Proof. intros. eapply Permutation_NoDup; [apply Permutation_cons_append|constructor; auto]. Qed.

  Lemma before_snoc {X} (a b c : X) l : before a b l -> before a b (l ++ [c]).
  Proof. intros (l1 & l2 & l3 & ->). exists l1, l2, (l3 ++ [c]). rewrite <- !app_assoc. simpl. rewrite <- app_assoc. reflexivity. Qed.

  Lemma before_last {X} (a c : X) l : In a l -> before a c (l ++ [c]).
  Proof. intro H. apply in_split in H as (l1 & l2 & ->). exists l1, l2, []. rewrite <- app_assoc. reflexivity. Qed.

  (** splitting a trace with one more event *)
  Lemma split_snoc (tr : list event) e tr1 x tr2 y tr3 :
    tr ++ [e] = tr1 ++ x :: tr2 ++ y :: tr3 ->
    (exists tr3', tr3 = tr3' ++ [e] /\ tr = tr1 ++ x :: tr2 ++ y :: tr3') \/
    (tr3 = [] /\ y = e /\ tr = tr1 ++ x :: tr2).
  Proof.
    intro H. destruct tr3 as [|e3 tr3].
    - right.
      replace (tr1 ++ x :: tr2 ++ [y]) with ((tr1 ++ x :: tr2) ++ [y]) in H by (rewrite <- app_assoc; reflexivity).
      apply app_inj_tail in H as [-> ->]. auto.
    - left. destruct (exists_last (l := e3 :: tr3)) as (t & z & E3); [discriminate|]. rewrite E3 in *. clear E3.
      replace (tr1 ++ x :: tr2 ++ y :: t ++ [z]) with ((tr1 ++ x :: tr2 ++ y :: t) ++ [z]) in H
        by (rewrite <- !app_assoc; simpl; rewrite <- app_assoc; reflexivity).
      apply app_inj_tail in H as [-> ->]. eauto.
  Qed.

  Lemma inv_init m0 : inv m0 [] (initial m0) [] m0.
  Proof.
    constructor; simpl; auto; try tauto; try (constructor; fail); try discriminate.
    - intros. destruct H; discriminate.
  Qed.

  Ltac thr i j := destruct (Nat.eq_dec i j) as [->|?N]; [rewrite ?upd_same|rewrite ?upd_other by auto].

  Lemma inv_step m0 tr s e s' lin m : inv m0 tr s lin m -> step s e s' ->
    exists lin' m', inv m0 (tr ++ opt_list e) s' lin' m'.
  Proof.
    intros I St. destruct I as [Iseq Ind Ilin Idom Ires Iabs Iinv Iwr Ird Iin Iord].
    destruct St as [m_ w rd thr i op T|m_ w rd thr i op r T D|m_ rd thr i op T D R|m_ thr i op T D R|m_ w rd thr i op k T
                   |m_ w rd thr i op f k T|m_ w rd thr i op T|m_ w rd thr i op r T R
                   |m_ w rd thr i op r T R|m_ w rd thr i op r T];
      cbn [st_mem st_wr st_rd st_thr st_crashed opt_list] in *; try rewrite app_nil_r.
    - (* invoke *)
      exists lin, m. constructor; cbn [st_mem st_wr st_rd st_thr st_crashed]; auto.
      + intro j. thr j i; auto. specialize (Ilin i). rewrite T in Ilin. exact Ilin.
      + intros j o r H. apply in_or_app. left. eauto.
      + intros j r H. apply in_app_or in H as [H|[H|[]]]; [|discriminate].
        destruct (Ires _ _ H) as [o K]. thr j i; [congruence|eauto].
      + intro j. thr j i.
        * split; [|discriminate]. intro H. exfalso. apply (H op). apply in_or_app; right; left; auto.
        * rewrite <- (Iabs j). split; intros H o K; apply (H o).
          -- apply in_or_app; left; auto.
          -- apply in_app_or in K as [K|[K|[]]]; auto. congruence.
      + intros j o p H. apply in_or_app. revert H. thr j i.
        * intros [H|H]; [|discriminate]. injection H as ->. right; left; auto.
        * intro H. left. eauto.
      + destruct w as [w|]; auto. destruct Iwr as (? & o & p & K & ? & ?). split; auto.
        exists o, p. thr w i; [congruence|]. auto.
      + intros j H. destruct (Ird j H) as (o & p & K & ?). exists o, p. thr j i; [congruence|auto].
      + intros j o p. thr j i; [discriminate|apply Iin].
      + intros j j' rj o tr1 tr2 tr3 H L. apply split_snoc in H as [(t & -> & H)|(-> & H & ->)]; [eapply Iord; eauto|].
        injection H as -> ->. exfalso. specialize (Ilin i). rewrite T in Ilin. exact (Ilin L).
    - (* direct *)
      assert (NI : ~ In i (map tid lin)) by (specialize (Ilin i); rewrite T in Ilin; exact Ilin).
      exists (lin ++ [(i, op, r)]), m. constructor; cbn [st_mem st_wr st_rd st_thr st_crashed]; auto.
      + eapply seq_exec_snoc; [eauto|]. rewrite (direct_code _ _ D). reflexivity.
      + rewrite map_app. apply NoDup_snoc; auto.
      + intro j. thr j i; cbn [in_lin]; [apply in_or_app; right; left; auto|].
        specialize (Ilin j). destruct (thr j); cbn [in_lin] in *;
          try (rewrite map_app; intro H; apply in_app_or in H as [H|[H|[]]]; auto; cbn in H; congruence);
          apply in_or_app; left; auto.
      + intros j o r' H. apply in_app_or in H as [H|[H|[]]]; eauto. injection H as <- <- <-.
        apply (Iinv i op (Ret r)). auto.
      + intros j r' H. destruct (Ires _ _ H) as [o K]. thr j i; [congruence|eauto].
      + intro j. thr j i; [rewrite (Iabs i), T; split; discriminate|apply Iabs].
      + intros j o p. thr j i; [|apply Iinv]. intros [H|H]; discriminate.
      + destruct w as [w|]; auto. destruct Iwr as (? & o & p & K & ? & ?). split; auto.
        exists o, p. thr w i; [congruence|]. auto.
      + intros j H. destruct (Ird j H) as (o & p & K & ?). exists o, p. thr j i; [congruence|auto].
      + intros j o p. thr j i; [discriminate|apply Iin].
      + intros a b ra o tr1 tr2 tr3 H L. rewrite map_app in L. apply in_app_or in L as [L|[L|[]]].
        * destruct (Iord a b ra o tr1 tr2 tr3 H L) as (x & y & ? & ? & ? & ? & ?).
          exists x, y. repeat split; auto using in_or_app, before_snoc.
        * cbn in L. subst b. destruct (Ires a ra) as [oa K].
          { rewrite H. apply in_or_app; right; left; auto. }
          pose proof (Ilin a) as La. rewrite K in La. cbn in La.
          exists (a, oa, ra), (i, op, r). repeat split; auto using before_last.
          -- apply in_or_app; auto.
          -- apply in_or_app; right; left; auto.
    - (* rlock *)
      exists lin, m. constructor; cbn [st_mem st_wr st_rd st_thr st_crashed]; auto.
      + intro j. thr j i; auto. specialize (Ilin i). rewrite T in Ilin. exact Ilin.
      + intros j r H. destruct (Ires _ _ H) as [o K]. thr j i; [congruence|eauto].
      + intro j. thr j i; [rewrite (Iabs i), T; split; discriminate|apply Iabs].
      + intros j o p. thr j i; [|apply Iinv]. intros [H|H]; [discriminate|]. injection H as <- <-.
        eapply (Iinv i op (code op)); auto.
      + intros j [<-|H]; [exists op, (code op); rewrite upd_same; auto|].
        destruct (Ird j H) as (o & p & K & ?). exists o, p. thr j i; [congruence|auto].
      + intros j o p. thr j i.
        * intro H; injection H as <- <-. split; [|congruence]. intros _.
          split; [left; auto|]. split; auto.
        * intro H. destruct (Iin j o p H) as [A B]. split; auto.
          intro K. destruct (A K) as (? & ? & ?). split; [right; auto|auto].
    - (* lock *)
      exists lin, m. constructor; cbn [st_mem st_wr st_rd st_thr st_crashed]; auto.
      + intro j. thr j i; auto. specialize (Ilin i). rewrite T in Ilin. exact Ilin.
      + intros j r H. destruct (Ires _ _ H) as [o K]. thr j i; [congruence|eauto].
      + intro j. thr j i; [rewrite (Iabs i), T; split; discriminate|apply Iabs].
      + intros j o p. thr j i; [|apply Iinv]. intros [H|H]; [discriminate|]. injection H as <- <-.
        eapply (Iinv i op (code op)); auto.
      + split; auto. exists op, (code op). rewrite upd_same. subst m_. auto.
      + intros j [].
      + intros j o p. thr j i.
        * intro H; injection H as <- <-. split; [congruence|auto].
        * intro H. destruct (Iin j o p H) as [A B]. split; [intro K; destruct (A K) as [[] _]|].
          intro K. specialize (B K). discriminate B.
    - (* get *)
      exists lin, m. constructor; cbn [st_mem st_wr st_rd st_thr st_crashed]; auto.
      + intro j. thr j i; auto. specialize (Ilin i). rewrite T in Ilin. exact Ilin.
      + intros j r H. destruct (Ires _ _ H) as [o K]. thr j i; [congruence|eauto].
      + intro j. thr j i; [rewrite (Iabs i), T; split; discriminate|apply Iabs].
      + intros j o p. thr j i; [|apply Iinv]. intros [H|H]; [discriminate|]. injection H as <- <-.
        eapply (Iinv i op (GetM k)); auto.
      + destruct w as [w|]; auto. destruct Iwr as (? & o & p & K & ? & ?). split; auto.
        thr w i; [|eauto]. rewrite T in K. injection K as <- <-. exists op, (k m_). auto.
      + intros j H. destruct (Ird j H) as (o & p & K & ?). thr j i; [|eauto].
        rewrite T in K. injection K as <- <-. eauto.
      + intros j o p. thr j i; [|apply Iin]. intro H; injection H as <- <-.
        destruct (Iin i op _ T) as [A B]. split; auto.
        intro K. destruct (A K) as (X & Y & Z). split; auto. split; [apply Y|].
        destruct w as [w|]; [destruct Iwr as (E & _); rewrite E in X; destruct X|]. subst m_. exact Z.
    - (* put *)
      destruct (Iin i op _ T) as [A B]. destruct (reader op) eqn:R.
      { destruct (A eq_refl) as (_ & F & _). destruct F. }
      specialize (B eq_refl). subst w. destruct Iwr as (E & o & p & K & R' & Q).
      rewrite T in K. injection K as <- <-.
      exists lin, m. constructor; cbn [st_mem st_wr st_rd st_thr st_crashed]; auto.
      + intro j. thr j i; auto. specialize (Ilin i). rewrite T in Ilin. exact Ilin.
      + intros j r H. destruct (Ires _ _ H) as [o K]. thr j i; [congruence|eauto].
      + intro j. thr j i; [rewrite (Iabs i), T; split; discriminate|apply Iabs].
      + intros j o p. thr j i; [|apply Iinv]. intros [H|H]; [discriminate|]. injection H as <- <-.
        eapply (Iinv i op (PutM f k)); auto.
      + split; auto. exists op, k. rewrite upd_same. auto.
      + intros j H. rewrite E in H. destruct H.
      + intros j o p. thr j i; [|apply Iin]. intro H; injection H as <- <-. split; [congruence|auto].
    - (* abort *)
      exists lin, m. constructor; auto.
    - (* runlock *)
      destruct (Iin i op _ T) as [A _]. destruct (A R) as (X & _ & Q).
      assert (W : w = None) by (destruct w; auto; destruct Iwr as (E & _); rewrite E in X; destruct X).
      subst w m_. assert (NI : ~ In i (map tid lin)) by (specialize (Ilin i); rewrite T in Ilin; exact Ilin).
      exists (lin ++ [(i, op, r)]), m. constructor; cbn [st_mem st_wr st_rd st_thr st_crashed]; auto.
      + eapply seq_exec_snoc; eauto.
      + rewrite map_app. apply NoDup_snoc; auto.
      + intro j. thr j i; cbn [in_lin]; [apply in_or_app; right; left; auto|].
        specialize (Ilin j). destruct (thr j); cbn [in_lin] in *;
          try (rewrite map_app; intro H; apply in_app_or in H as [H|[H|[]]]; auto; cbn in H; congruence);
          apply in_or_app; left; auto.
      + intros j o r' H. apply in_app_or in H as [H|[H|[]]]; eauto. injection H as <- <- <-. eauto.
      + intros j r' H. destruct (Ires _ _ H) as [o K]. thr j i; [congruence|eauto].
      + intro j. thr j i; [rewrite (Iabs i), T; split; discriminate|apply Iabs].
      + intros j o p. thr j i; [|apply Iinv]. intros [H|H]; discriminate.
      + intros j H. apply in_remove in H as [H HN]. destruct (Ird j H) as (o & p & K & ?).
        exists o, p. thr j i; [congruence|auto].
      + intros j o p. thr j i; [discriminate|]. intro H. destruct (Iin j o p H) as [A' B'].
        split; auto. intro K. destruct (A' K) as (? & ? & ?). split; auto.
        apply in_in_remove; auto.
      + intros a b ra o tr1 tr2 tr3 H L. rewrite map_app in L. apply in_app_or in L as [L|[L|[]]].
        * destruct (Iord a b ra o tr1 tr2 tr3 H L) as (x & y & ? & ? & ? & ? & ?).
          exists x, y. repeat split; auto using in_or_app, before_snoc.
        * cbn in L. subst b. destruct (Ires a ra) as [oa K].
          { rewrite H. apply in_or_app; right; left; auto. }
          pose proof (Ilin a) as La. rewrite K in La. cbn in La.
          exists (a, oa, ra), (i, op, r). repeat split; auto using before_last.
          -- apply in_or_app; auto.
          -- apply in_or_app; right; left; auto.
    - (* unlock *)
      destruct (Iin i op _ T) as [_ B]. specialize (B R). subst w.
      destruct Iwr as (E & o & p & K & _ & Q). rewrite T in K. injection K as <- <-.
      assert (NI : ~ In i (map tid lin)) by (specialize (Ilin i); rewrite T in Ilin; exact Ilin).
      exists (lin ++ [(i, op, r)]), m_. constructor; cbn [st_mem st_wr st_rd st_thr st_crashed]; auto.
      + simpl in Q. eapply seq_exec_snoc; [eauto|]. rewrite <- Q. reflexivity.
      + rewrite map_app. apply NoDup_snoc; auto.
      + intro j. thr j i; cbn [in_lin]; [apply in_or_app; right; left; auto|].
        specialize (Ilin j). destruct (thr j); cbn [in_lin] in *;
          try (rewrite map_app; intro H; apply in_app_or in H as [H|[H|[]]]; auto; cbn in H; congruence);
          apply in_or_app; left; auto.
      + intros j o r' H. apply in_app_or in H as [H|[H|[]]]; eauto. injection H as <- <- <-. eauto.
      + intros j r' H. destruct (Ires _ _ H) as [o K]. thr j i; [congruence|eauto].
      + intro j. thr j i; [rewrite (Iabs i), T; split; discriminate|apply Iabs].
      + intros j o p. thr j i; [|apply Iinv]. intros [H|H]; discriminate.
      + rewrite E. intros j [].
      + intros j o p. thr j i; [discriminate|]. intro H. destruct (Iin j o p H) as [A' B'].
        split; intro K.
        * destruct (A' K) as (X & _). rewrite E in X. destruct X.
        * specialize (B' K). congruence.
      + intros a b ra o tr1 tr2 tr3 H L. rewrite map_app in L. apply in_app_or in L as [L|[L|[]]].
        * destruct (Iord a b ra o tr1 tr2 tr3 H L) as (x & y & ? & ? & ? & ? & ?).
          exists x, y. repeat split; auto using in_or_app, before_snoc.
        * cbn in L. subst b. destruct (Ires a ra) as [oa K].
          { rewrite H. apply in_or_app; right; left; auto. }
          pose proof (Ilin a) as La. rewrite K in La. cbn in La.
          exists (a, oa, ra), (i, op, r). repeat split; auto using before_last.
          -- apply in_or_app; auto.
          -- apply in_or_app; right; left; auto.
    - (* reply *)
      exists lin, m. constructor; cbn [st_mem st_wr st_rd st_thr st_crashed]; auto.
      + intro j. thr j i; auto. specialize (Ilin i). rewrite T in Ilin. exact Ilin.
      + intros j o r' H. apply in_or_app; left; eauto.
      + intros j r' H. apply in_app_or in H as [H|[H|[]]].
        * destruct (Ires _ _ H) as [o K]. thr j i; [congruence|eauto].
        * injection H as <- <-. rewrite upd_same. eauto.
      + intro j. thr j i.
        * split; [|discriminate]. intro H. exfalso.
          assert (K : forall o, ~ In (EInv i o) tr) by (intros o K; apply (H o); apply in_or_app; auto).
          apply Iabs in K. congruence.
        * rewrite <- (Iabs j). split; intros H o K; apply (H o).
          -- apply in_or_app; auto.
          -- apply in_app_or in K as [K|[K|[]]]; auto. discriminate.
      + intros j o p H. apply in_or_app; left. revert H. thr j i; [|apply Iinv]. intros [H|H]; discriminate.
      + destruct w as [w|]; auto. destruct Iwr as (? & o & p & K & ? & ?). split; auto.
        exists o, p. thr w i; [congruence|]. auto.
      + intros j H. destruct (Ird j H) as (o & p & K & ?). exists o, p. thr j i; [congruence|auto].
      + intros j o p. thr j i; [discriminate|apply Iin].
      + intros a b ra o tr1 tr2 tr3 H L. apply split_snoc in H as [(t & -> & H)|(-> & H & ->)]; [eapply Iord; eauto|].
        discriminate H.
  Qed.

  Lemma inv_reach m0 tr s : reach m0 tr s -> exists lin m, inv m0 tr s lin m.
  Proof.
    induction 1 as [|tr s e s' R (lin & m & I) St]; [exists [], m0; apply inv_init|].
    eapply inv_step; eauto.
  Qed.

  Lemma seq_exec_ext sem1 sem2 m l m' : (forall op m, sem1 op m = sem2 op m) ->
    seq_exec sem1 m l m' -> seq_exec sem2 m l m'.
  Proof. intros E. induction 1; econstructor; eauto. rewrite <- E. auto. Qed.

  (** Some goroutine can move whenever one has something left to do. *)
  Lemma progress m0 tr s i : reach m0 tr s -> st_crashed s = false ->
    (exists op, st_thr s i = Ready op) \/ (exists op p, st_thr s i = Inside op p) \/
    (exists op r, st_thr s i = Released op r) ->
    exists e s', step s e s' /\ forall j op, e <> Some (EInv j op).
  Proof.
    intros R C H. destruct (inv_reach _ _ _ R) as (lin & m & I).
    assert (Move : forall j op p, st_thr s j = Inside op p ->
      exists e s', step s e s' /\ forall j op, e <> Some (EInv j op)).
    { intros j op p K. destruct s as [mm w rd thr c]; cbn in *. subst c.
      destruct p as [r| |k|f k].
      - destruct (reader op) eqn:E.
        + eexists None, _; split; [eapply s_runlock; eauto|discriminate].
        + eexists None, _; split; [eapply s_unlock; eauto|discriminate].
      - eexists None, _; split; [eapply s_abort; eauto|discriminate].
      - eexists None, _; split; [eapply s_get; eauto|discriminate].
      - eexists None, _; split; [eapply s_put; eauto|discriminate]. }
    destruct H as [[op H]|[(op & p & H)|(op & r & H)]]; [|eauto|].
    - destruct (direct op) as [r|] eqn:D.
      { destruct s as [mm w rd thr c]; cbn in *. subst c.
        eexists None, _; split; [eapply s_direct; eauto|discriminate]. }
      destruct s as [mm w rd thr c]; cbn in *. subst c. destruct w as [w|].
      + destruct (i_wr _ _ _ _ _ I) as (_ & o & p & K & _). eauto.
      + destruct rd as [|x rd].
        * destruct (reader op) eqn:E.
          -- eexists None, _; split; [eapply s_rlock; eauto|discriminate].
          -- eexists None, _; split; [eapply s_lock; eauto|discriminate].
        * destruct (i_rd _ _ _ _ _ I x (or_introl eq_refl)) as (o & p & K & _). eauto.
    - destruct s as [mm w rd thr c]; cbn in *. subst c.
      eexists _, _; split; [eapply s_reply; eauto|discriminate].
  Qed.

  (** One goroutine, one operation. *)
  (** no line of its own in /repo: specification and invariant *)
  Definition inv_tids (tr : list event) : list nat :=
    flat_map (fun e => match e with EInv i _ => [i] | ERes _ _ => [] end) tr.
  Lemma inv_tids_in tr i : In i (inv_tids tr) <-> exists op, In (EInv i op) tr.
  Proof.
    unfold inv_tids. rewrite in_flat_map. split.
    - intros ([j op|j r] & H & K); cbn in K; [|tauto]. destruct K as [<-|[]]. eauto.
    - intros [op H]. exists (EInv i op). split; auto. left; auto.
  Qed.
  Lemma invoked_once m0 tr s : reach m0 tr s -> NoDup (inv_tids tr).
  Proof.
    induction 1 as [|tr s e s' R IH St]; [constructor|].
    destruct (inv_reach _ _ _ R) as (lin & m & I).
    unfold inv_tids. rewrite flat_map_app. fold (inv_tids tr).
    destruct St; cbn [opt_list flat_map app]; rewrite ?app_nil_r; auto.
    apply NoDup_snoc; auto. rewrite inv_tids_in. intros [o K].
    apply (proj2 (i_abs _ _ _ _ _ I i) H o K).
  Qed.

  (** A crash is the crash of one operation run alone on a memory reached by a
      sequential execution of operations invoked. *)
  Lemma crash_cause m0 tr s : reach m0 tr s -> st_crashed s = true ->
    exists lin m i op, seq_exec (fun op => run (code op)) m0 lin m /\ NoDup (map tid lin) /\
      (forall i op r, In (i, op, r) lin -> In (EInv i op) tr) /\ In (EInv i op) tr /\ ~ In i (map tid lin) /\
      run (code op) m = Panic.
  Proof.
    intros R C. destruct R as [|tr s e s' R St]; [discriminate C|].
    destruct (inv_reach _ _ _ R) as (lin & m & I).
    destruct St; cbn [st_crashed] in C; try discriminate C. cbn [opt_list]. rewrite app_nil_r.
    destruct I as [Iseq Ind Ilin Idom Ires Iabs Iinv Iwr Ird Iin Iord]. cbn [st_mem st_wr st_rd st_thr] in *.
    exists lin, m, i, op. split; auto. split; auto. split; auto. split; [eapply Iinv; eauto|].
    split; [specialize (Ilin i); rewrite H in Ilin; exact Ilin|].
    destruct (Iin i op _ H) as [A B]. destruct (reader op) eqn:E.
    - destruct (A eq_refl) as (_ & _ & Q). rewrite <- Q. reflexivity.
    - rewrite (B eq_refl) in Iwr. destruct Iwr as (_ & o & p & K & _ & Q). rewrite H in K. injection K as <- <-.
      rewrite <- Q. reflexivity.
  Qed.

  (** ** Running a given schedule (for concrete cases) *)
  (** sync.RWMutex as used by application/serverbase.go:56-70 and :195-291 *)
  Inductive action := Invoke (i : nat) (op : Op) | Move (i : nat).
  (** sync.RWMutex as used by application/serverbase.go:56-70 and :195-291 *)
  Definition exec1 (s : state) (a : action) : option (option event * state) :=
    let '(mkState m w rd thr c) := s in
    if c then None else
    match a with
    | Invoke i op => match thr i with Absent => Some (Some (EInv i op), mkState m w rd (upd thr i (Ready op)) false) | _ => None end
    | Move i =>
        match thr i with
        | Absent | Sent _ _ => None
        | Ready op =>
            match direct op with
            | Some r => Some (None, mkState m w rd (upd thr i (Released op r)) false)
            | None =>
                if reader op then
                  match w with None => Some (None, mkState m None (i :: rd) (upd thr i (Inside op (code op))) false) | Some _ => None end
                else
                  match w, rd with
                  | None, [] => Some (None, mkState m (Some i) [] (upd thr i (Inside op (code op))) false)
                  | _, _ => None
                  end
            end
        | Inside op (Ret r) =>
            if reader op then Some (None, mkState m w (remove Nat.eq_dec i rd) (upd thr i (Released op r)) false)
            else Some (None, mkState m None rd (upd thr i (Released op r)) false)
        | Inside op Abort => Some (None, mkState m w rd thr true)
        | Inside op (GetM k) => Some (None, mkState m w rd (upd thr i (Inside op (k m))) false)
        | Inside op (PutM f k) => Some (None, mkState (f m) w rd (upd thr i (Inside op k)) false)
        | Released op r => Some (Some (ERes i r), mkState m w rd (upd thr i (Sent op r)) false)
        end
    end.
  Lemma exec1_step s a e s' : exec1 s a = Some (e, s') -> step s e s'.
  Proof.
    destruct s as [m w rd thr c]. cbn [exec1]. destruct c; [discriminate|]. destruct a as [i op|i].
    - destruct (thr i) eqn:T; try discriminate. intro H; injection H as <- <-. constructor; auto.
    - destruct (thr i) as [|op|op p|op r|op r] eqn:T; try discriminate.
      + destruct (direct op) as [r|] eqn:D.
        { intro H; injection H as <- <-. eapply s_direct; eauto. }
        destruct (reader op) eqn:R.
        * destruct w; [discriminate|]. intro H; injection H as <- <-. eapply s_rlock; eauto.
        * destruct w; [discriminate|]. destruct rd; [|discriminate]. intro H; injection H as <- <-. eapply s_lock; eauto.
      + destruct p as [r| |k|f k].
        * destruct (reader op) eqn:R; intro H; injection H as <- <-; [eapply s_runlock|eapply s_unlock]; eauto.
        * intro H; injection H as <- <-. eapply s_abort; eauto.
        * intro H; injection H as <- <-. eapply s_get; eauto.
        * intro H; injection H as <- <-. eapply s_put; eauto.
      + intro H; injection H as <- <-. eapply s_reply; eauto.
  Qed.
  (** An impossible action is skipped, so that a schedule can say "run i until
      it waits". *)
  (** sync.RWMutex as used by application/serverbase.go:56-70 and :195-291 *)
  Fixpoint exec (s : state) (tr : list event) (l : list action) : list event * state :=
    match l with
    | [] => (tr, s)
    | a :: l' => match exec1 s a with
                 | Some (e, s') => exec s' (tr ++ opt_list e) l'
                 | None => exec s tr l'
                 end
    end.
  Lemma exec_reach m0 l : forall s tr, reach m0 tr s -> reach m0 (fst (exec s tr l)) (snd (exec s tr l)).
  Proof.
    induction l as [|a l IH]; intros s tr R; cbn [exec]; auto.
    destruct (exec1 s a) as [[e s']|] eqn:E; auto. apply IH. econstructor; eauto. apply exec1_step in E. exact E.
  Qed.
End Conc.
