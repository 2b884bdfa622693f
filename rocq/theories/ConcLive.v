(** Liveness of the concurrent server loop of [Conc.v].

    The lock there lets a reader in whenever no writer holds it, more than
    [sync.RWMutex] does.  Here the standard library's lock is modelled as it
    is (a writer that waits keeps later readers out; readers that wait go
    first when the writer leaves), so that statements about waiting make sense.
    Every step of this machine is at most one step of [Conc.v]'s, so what holds
    of all runs there holds of the runs here. *)
From Coq Require Import List Lia Bool Arith.
From Verif Require Import Base Conc.
Import ListNotations.
Local Arguments Ret {Mem Resp}. Local Arguments Abort {Mem Resp}.
Local Arguments GetM {Mem Resp}. Local Arguments PutM {Mem Resp}.

Section Live.
  Variables (Mem Resp Op : Type).
  Variables (code : Op -> prog Mem Resp) (reader : Op -> bool) (direct : Op -> option Resp).
  Notation state := (Conc.state Mem Resp Op).
  Notation event := (Conc.event Resp Op).
  Notation thr s := (Conc.st_thr Mem Resp Op s).
  Notation crashed s := (Conc.st_crashed Mem Resp Op s).
  Notation st_wr s := (Conc.st_wr Mem Resp Op s).
  Notation st_rd s := (Conc.st_rd Mem Resp Op s).
  Notation phase := (Conc.phase Mem Resp Op).
  Notation Absent := (Conc.Absent Mem Resp Op).
  Notation Ready := (Conc.Ready Mem Resp Op).
  Notation Inside := (Conc.Inside Mem Resp Op).
  Notation Released := (Conc.Released Mem Resp Op).
  Notation Sent := (Conc.Sent Mem Resp Op).
  Notation step := (Conc.step Mem Resp Op code reader direct).
  Notation exec1 := (Conc.exec1 Mem Resp Op code reader direct).
  Notation reach := (Conc.reach Mem Resp Op code reader direct).
  Notation upd := (Conc.upd Mem Resp Op).
  Notation mkState := (Conc.mkState Mem Resp Op).
  Hypothesis readers_write_free : forall op, reader op = true -> write_free Mem Resp (code op).
  Hypothesis direct_code : forall op r, direct op = Some r -> code op = Ret r.

  (** ** Termination under any scheduler: without new operations only finitely
      many steps are left. *)
  (** sync.RWMutex as used by application/serverbase.go:195-291 *)
  Definition arrival (e : option event) : Prop := exists i op, e = Some (EInv Resp Op i op).
  (** no line of its own in /repo: specification and invariant *)
  Definition quiet (s' s : state) : Prop := exists e, step s e s' /\ ~ arrival e.

  (** no line of its own in /repo: specification and invariant *)
  Inductive ph_lt : phase -> phase -> Prop :=
  | pl_direct op r : ph_lt (Released op r) (Ready op)
  | pl_lock op : ph_lt (Inside op (code op)) (Ready op)
  | pl_get op k m : ph_lt (Inside op (k m)) (Inside op (GetM k))
  | pl_put op f k : ph_lt (Inside op k) (Inside op (PutM f k))
  | pl_ret op r : ph_lt (Released op r) (Inside op (Ret r))
  | pl_sent op r : ph_lt (Sent op r) (Released op r).

  Lemma acc_sent op r : Acc ph_lt (Sent op r).
  Proof. constructor. intros y H. inversion H. Qed.
  Lemma acc_released op r : Acc ph_lt (Released op r).
  Proof. constructor. intros y H. inversion H; subst. apply acc_sent. Qed.
  Lemma acc_inside op p : Acc ph_lt (Inside op p).
  Proof.
    induction p as [r| |k IH|f k IH]; constructor; intros y H; inversion H; subst; auto using acc_released.
  Qed.
  Lemma wf_ph_lt : well_founded ph_lt.
  Proof.
    intros [|op|op p|op r|op r].
    - constructor. intros y H. inversion H.
    - constructor. intros y H. inversion H; subst; auto using acc_released, acc_inside.
    - apply acc_inside.
    - apply acc_released.
    - apply acc_sent.
  Qed.

  (** no line of its own in /repo: specification and invariant *)
  Definition lt_on (L : list nat) (f' f : nat -> phase) : Prop :=
    exists i, In i L /\ ph_lt (f' i) (f i) /\ forall j, j <> i -> f' j = f j.
  Lemma acc_lt_on L : forall f, Acc (lt_on L) f.
  Proof.
    induction L as [|i L IH]; [intros f; constructor; intros y (j & [] & _)|].
    assert (X : forall x, Acc ph_lt x -> forall f, f i = x -> Acc (lt_on (i :: L)) f).
    { induction 1 as [x _ OUT]. intros f. specialize (IH f). induction IH as [f _ INN]. intros E.
      constructor. intros f' (j & J & LT & SAME).
      destruct (Nat.eq_dec j i) as [->|NE].
      - apply (OUT (f' i)); [rewrite <- E; exact LT|reflexivity].
      - apply INN; [|rewrite SAME by auto; exact E].
        destruct J as [J|J]; [congruence|]. exists j. auto. }
    intros f. apply (X (f i)); [apply wf_ph_lt|reflexivity].
  Qed.

  Lemma quiet_lt s s' : quiet s' s -> crashed s' = true \/ exists i, ph_lt (thr s' i) (thr s i) /\ thr s i <> Absent /\
    forall j, j <> i -> thr s' j = thr s j.
  Proof.
    intros (e & S & NA).
    assert (U : forall t i (x : phase), ph_lt x (t i) -> t i <> Absent ->
      exists i0, ph_lt (upd t i x i0) (t i0) /\ t i0 <> Absent /\ forall j, j <> i0 -> upd t i x j = t j).
    { intros t i x L N. exists i. rewrite upd_same. split; [exact L|]. split; [exact N|]. intros j J. apply upd_other, J. }
    destruct S; cbn [Conc.st_thr Conc.st_crashed]; auto; try right; try (apply U; rewrite H; [constructor|discriminate]).
    exfalso. apply NA. exists i, op. reflexivity.
  Qed.

  Lemma quiet_busy s s' : quiet s' s -> exists i, thr s i <> Absent /\ forall op r, thr s i <> Sent op r.
  Proof.
    intros (e & S & NA). destruct S; cbn [Conc.st_thr]; try (exists i; split; [rewrite H; discriminate|intros ? ?; rewrite H; discriminate]).
    exfalso. apply NA. exists i, op. reflexivity.
  Qed.

  Lemma crashed_stuck s s' : crashed s = true -> ~ quiet s' s.
  Proof. intros Cr (e & S & _). destruct S; cbn in Cr; discriminate. Qed.

  Lemma acc_quiet L s : (forall i, thr s i <> Absent -> In i L) -> Acc quiet s.
  Proof.
    intros D. remember (thr s) as f eqn:E. revert s E D.
    induction (acc_lt_on L f) as [f _ IH]. intros s -> D. constructor. intros s' Q.
    destruct (quiet_lt _ _ Q) as [Cr|(i & LT & NA & SAME)].
    - constructor. intros s2 Q2. exfalso. exact (crashed_stuck _ _ Cr Q2).
    - apply (IH (thr s')); [exists i; auto|reflexivity|].
      intros j NJ. apply D. destruct (Nat.eq_dec j i) as [->|N]; [exact NA|]. rewrite <- SAME; auto.
  Qed.

  Lemma reach_acc m0 tr s : reach m0 tr s -> Acc quiet s.
  Proof.
    intros R. destruct (inv_reach _ _ _ _ _ _ readers_write_free direct_code _ _ _ R) as (lin & m & I).
    apply (acc_quiet (inv_tids _ _ tr)). intros i NA.
    destruct (in_dec Nat.eq_dec i (inv_tids _ _ tr)) as [Y|N]; [exact Y|]. exfalso. apply NA.
    apply (i_abs _ _ _ _ _ _ _ _ _ _ I). intros op K. apply N. apply inv_tids_in. eauto.
  Qed.

  (** runs without arrivals, with their events *)
  (** no line of its own in /repo: specification and invariant *)
  Inductive quiet_run : state -> list event -> state -> Prop :=
  | qr_nil s : quiet_run s [] s
  | qr_step s tr s1 e s2 : quiet_run s tr s1 -> step s1 e s2 -> ~ arrival e -> quiet_run s (tr ++ opt_list e) s2.

  Lemma quiet_run_reach m0 tr s tr' s' : reach m0 tr s -> quiet_run s tr' s' -> reach m0 (tr ++ tr') s'.
  Proof.
    intros R Q. induction Q as [|s tr' s1 e s2 Q IH S NA]; [rewrite app_nil_r; exact R|].
    rewrite app_assoc. econstructor; eauto.
  Qed.

  Lemma sent_in m0 tr s : reach m0 tr s -> forall i op r, thr s i = Sent op r -> In (ERes Resp Op i r) tr.
  Proof.
    induction 1 as [|tr s e s' R IH S]; intros i op r T; [discriminate T|].
    assert (U : forall t k (x : phase), (forall i op r, t i = Sent op r -> In (ERes Resp Op i r) tr) ->
      upd t k x i = Sent op r -> x = Sent op r /\ k = i \/ In (ERes Resp Op i r) tr).
    { intros t k x H K. unfold upd in K. destruct (Nat.eqb_spec i k) as [->|N]; [left; auto|right; eapply H; eauto]. }
    apply in_or_app.
    destruct S; cbn [Conc.st_thr] in *; try (left; eapply IH; eassumption);
      (destruct (U _ _ _ IH T) as [(E & <-)|X]; [try discriminate E|left; exact X]).
    right. injection E as <- <-. left. reflexivity.
  Qed.

  Lemma invoked_thr m0 tr s : reach m0 tr s -> forall i op, In (EInv Resp Op i op) tr -> thr s i <> Absent.
  Proof.
    intros R i op H E. destruct (inv_reach _ _ _ _ _ _ readers_write_free direct_code _ _ _ R) as (lin & m & I).
    exact (proj2 (i_abs _ _ _ _ _ _ _ _ _ _ I i) E op H).
  Qed.

  Lemma stuck_all_sent m0 tr s : reach m0 tr s -> crashed s = false -> (forall s', ~ quiet s' s) ->
    forall i, thr s i = Absent \/ exists op r, thr s i = Sent op r.
  Proof.
    intros R Cr ST i. destruct (thr s i) as [|op|op p|op r|op r] eqn:E; [left; reflexivity| | | |right; eauto]; exfalso;
      (destruct (Conc.progress _ _ _ _ _ _ readers_write_free direct_code m0 tr s i R Cr) as (e & s' & S & NI); [eauto 6|]);
      apply (ST s'); exists e; (split; [exact S|]); intros (j & o & ->); exact (NI j o eq_refl).
  Qed.

  Lemma quiet_dec m0 tr s : reach m0 tr s -> crashed s = false -> (exists s', quiet s' s) \/ forall s', ~ quiet s' s.
  Proof.
    intros R Cr.
    assert (D : forall L, (exists i op, In i L /\ (thr s i = Ready op \/ (exists p, thr s i = Inside op p) \/ exists r, thr s i = Released op r)) \/
      forall i, In i L -> thr s i = Absent \/ exists op r, thr s i = Sent op r).
    { induction L as [|i L [(j & op & J & H)|H]]; [right; intros i []|left; exists j, op; split; [right; exact J|exact H]|].
      destruct (thr s i) as [|op|op p|op r|op r] eqn:E.
      - right. intros j [<-|J]; auto.
      - left. exists i, op. split; [left; reflexivity|auto].
      - left. exists i, op. split; [left; reflexivity|eauto].
      - left. exists i, op. split; [left; reflexivity|eauto].
      - right. intros j [<-|J]; eauto. }
    destruct (D (inv_tids Resp Op tr)) as [(i & op & _ & H)|H].
    - left. destruct (Conc.progress _ _ _ _ _ _ readers_write_free direct_code m0 tr s i R Cr) as (e & s' & S & NI).
      { destruct H as [H|[(p & H)|(r & H)]]; eauto 6. }
      exists s', e. split; [exact S|]. intros (j & o & ->). exact (NI j o eq_refl).
    - right. intros s' Q. destruct (quiet_busy s s' Q) as (i & NA & NS).
      destruct (H i) as [K|(op & r & K)]; [|exact (NA K)|exact (NS op r K)].
      destruct (inv_reach _ _ _ _ _ _ readers_write_free direct_code _ _ _ R) as (lin & m & I).
      destruct (in_dec Nat.eq_dec i (inv_tids _ _ tr)) as [Y|N]; [exact Y|]. exfalso. apply NA.
      apply (i_abs _ _ _ _ _ _ _ _ _ _ I). intros op K. apply N. apply inv_tids_in. eauto.
  Qed.

  (** ** [sync.RWMutex] (Go standard library, as used by serverbase.go:216-233,
      271, 286).  [g_pend]: the writer that owns the inner mutex, waiting for
      the readers or active; [g_wq]: readers that called [RLock] since and
      sleep; [g_grant]: readers woken by the last [Unlock] that have not run
      yet; they count as readers inside for the next writer. *)
  Record gstate := mkG { g_st : state; g_pend : option nat; g_wq : list nat; g_grant : list nat }.

  (** sync.RWMutex as used by application/serverbase.go:195-291 *)
  Definition wants (s : state) (i : nat) (b : bool) : Prop :=
    exists op, thr s i = Ready op /\ direct op = None /\ reader op = b.
  (** no line of its own in /repo: specification and invariant *)
  Definition write_done (s : state) (i : nat) : Prop :=
    exists op r, thr s i = Inside op (Ret r) /\ reader op = false.

  (** The label is the goroutine that moves; [None]: nothing happens. *)
  (** sync.RWMutex as used by application/serverbase.go:195-291 *)
  Inductive gstep : gstate -> option nat -> option event -> gstate -> Prop :=
  | g_idle g : gstep g None None g
  | g_arrive s p q gr i op e s' : exec1 s (Invoke Op i op) = Some (e, s') ->
      gstep (mkG s p q gr) (Some i) e (mkG s' p q gr)
  | g_plain s p q gr i e s' : ~ wants s i true -> ~ wants s i false -> ~ write_done s i ->
      exec1 s (Move Op i) = Some (e, s') -> gstep (mkG s p q gr) (Some i) e (mkG s' p q gr)
  | g_rlock s q gr i e s' : wants s i true -> ~ In i gr -> exec1 s (Move Op i) = Some (e, s') ->
      gstep (mkG s None q gr) (Some i) e (mkG s' None q gr)
  | g_rwait s w q gr i : wants s i true -> ~ In i q -> ~ In i gr -> crashed s = false ->
      gstep (mkG s (Some w) q gr) (Some i) None (mkG s (Some w) (i :: q) gr)
  | g_enter s p q gr i e s' : In i gr -> exec1 s (Move Op i) = Some (e, s') ->
      gstep (mkG s p q gr) (Some i) e (mkG s' p q (remove Nat.eq_dec i gr))
  | g_announce s q gr i : wants s i false -> crashed s = false ->
      gstep (mkG s None q gr) (Some i) None (mkG s (Some i) q gr)
  | g_lock s q i e s' : wants s i false -> exec1 s (Move Op i) = Some (e, s') ->
      gstep (mkG s (Some i) q []) (Some i) e (mkG s' (Some i) q [])
  | g_unlock s p q gr i e s' : write_done s i -> exec1 s (Move Op i) = Some (e, s') ->
      gstep (mkG s p q gr) (Some i) e (mkG s' None [] q).

  (** Goroutine [i] has something to do and can do it. *)
  (** sync.RWMutex as used by application/serverbase.go:195-291 *)
  Definition enabled (g : gstate) (i : nat) : Prop :=
    thr (g_st g) i <> Absent /\ exists e g', gstep g (Some i) e g'.

  (** Infinite runs: no goroutine that can run is left out for ever, and a
      writer that waits for the inner mutex while that becomes free again and
      again gets it ([sync.Mutex] hands over to a starving waiter). *)
  (** sync.RWMutex as used by application/serverbase.go:195-291 *)
  Record fair_run (m0 : Mem) (g : nat -> gstate) (mv : nat -> option nat) (tr : nat -> list event) : Prop := {
    fr_init : g 0 = mkG (initial Mem Resp Op m0) None [] [] /\ tr 0 = [];
    fr_step : forall n, exists e, gstep (g n) (mv n) e (g (S n)) /\ tr (S n) = tr n ++ opt_list e;
    fr_sched : forall i n, exists m, n <= m /\ (mv m = Some i \/ ~ enabled (g m) i);
    fr_mutex : forall i n, (forall n', n <= n' -> exists m, n' <= m /\ g_pend (g m) = None) ->
      exists m, n <= m /\ (mv m = Some i \/ ~ wants (g_st (g m)) i false) }.

  (** *** Facts about single steps *)
  Lemma exec1_frame s i e s' : exec1 s (Move Op i) = Some (e, s') -> forall j, j <> i -> thr s' j = thr s j.
  Proof.
    destruct s as [m w rd t c]. cbn [Conc.exec1]. destruct c; [discriminate|].
    assert (U : forall x j, j <> i -> upd t i x j = t j) by (intros; apply upd_other; auto).
    destruct (t i) as [|op|op p|op r|op r]; try discriminate.
    - destruct (direct op); [intros [= <- <-]; apply U|]. destruct (reader op).
      + destruct w; [discriminate|]. intros [= <- <-]; apply U.
      + destruct w; [discriminate|]. destruct rd; [|discriminate]. intros [= <- <-]; apply U.
    - destruct p; [destruct (reader op)|..]; intros [= <- <-]; try apply U; reflexivity.
    - intros [= <- <-]; apply U.
  Qed.
  Lemma arrive_frame s i op e s' : exec1 s (Invoke Op i op) = Some (e, s') ->
    thr s i = Absent /\ (forall j, j <> i -> thr s' j = thr s j) /\ st_wr s' = st_wr s /\ st_rd s' = st_rd s.
  Proof.
    destruct s as [m w rd t c]. cbn [Conc.exec1]. destruct c; [discriminate|].
    destruct (t i) eqn:T; try discriminate. intros [= <- <-]. cbn. repeat split; auto.
    intros; apply upd_other; auto.
  Qed.

  Lemma gstep_reach m0 tr g o e g' : reach m0 tr (g_st g) -> gstep g o e g' ->
    reach m0 (tr ++ opt_list e) (g_st g').
  Proof.
    intros R S. destruct S; cbn [g_st] in *; cbn [opt_list]; rewrite ?app_nil_r; auto;
      (econstructor; [exact R|]); eapply exec1_step; eauto.
  Qed.

  Lemma gstep_frame g i e g' : gstep g (Some i) e g' -> forall j, j <> i -> thr (g_st g') j = thr (g_st g) j.
  Proof.
    intros S. inversion S; subst; cbn [g_st]; try (eapply exec1_frame; eassumption); auto.
    eapply arrive_frame; eassumption.
  Qed.

  Lemma wants_frame s s' j b : thr s' j = thr s j -> wants s j b -> wants s' j b.
  Proof. intros E (op & T & X). exists op. rewrite E. auto. Qed.
  Lemma wants_fun s i : wants s i true -> wants s i false -> False.
  Proof. intros (o & T & _ & R) (o' & T' & _ & R'). rewrite T in T'. injection T' as <-. congruence. Qed.

  (** What [Move i] does to the lock, by the phase of [i]. *)
  Lemma exec1_cases s i e s' : exec1 s (Move Op i) = Some (e, s') -> crashed s' = false ->
    (wants s i true /\ st_wr s = None /\ st_wr s' = None /\ st_rd s' = i :: st_rd s /\
       exists op, thr s i = Ready op /\ thr s' i = Inside op (code op)) \/
    (wants s i false /\ st_wr s = None /\ st_rd s = [] /\ st_wr s' = Some i /\ st_rd s' = [] /\
       exists op, thr s i = Ready op /\ thr s' i = Inside op (code op)) \/
    (write_done s i /\ st_wr s' = None /\ st_rd s' = st_rd s /\
       exists op r, thr s i = Inside op (Ret r) /\ thr s' i = Released op r) \/
    (~ wants s i true /\ ~ wants s i false /\ ~ write_done s i /\ st_wr s' = st_wr s /\
       (forall j, In j (st_rd s') -> In j (st_rd s)) /\ (forall j, j <> i -> In j (st_rd s) -> In j (st_rd s')) /\
       ph_lt (thr s' i) (thr s i)).
  Proof.
    destruct s as [m w rd t c]. cbn [Conc.exec1]. destruct c; [discriminate|].
    unfold wants, write_done. cbn [Conc.st_thr Conc.st_wr Conc.st_rd].
    destruct (t i) as [|op|op p|op r|op r] eqn:T; try discriminate.
    - destruct (direct op) as [r|] eqn:D.
      { intros [= <- <-] _. cbn. right. right. right. rewrite upd_same.
        repeat split; auto; try (intros (o & E & X); injection E as <-; destruct X; congruence).
        - intros (o & r' & E & _). discriminate E.
        - constructor. }
      destruct (reader op) eqn:RD.
      + destruct w; [discriminate|]. intros [= <- <-] _. cbn. left. rewrite upd_same. repeat split; eauto.
      + destruct w; [discriminate|]. destruct rd; [|discriminate]. intros [= <- <-] _. cbn. right. left. rewrite upd_same.
        repeat split; eauto.
    - destruct p as [r| |k|f k].
      + destruct (reader op) eqn:RD; intros [= <- <-] _; cbn.
        * right. right. right. rewrite upd_same. repeat split; try (intros (o & E & _); discriminate E).
          -- intros (o & r' & E & X). injection E as <- <-. congruence.
          -- intros j J. apply in_remove in J. apply J.
          -- intros j N J. apply in_in_remove; auto.
          -- constructor.
        * right. right. left. rewrite upd_same. repeat split; eauto.
      + intros [= <- <-] X. discriminate X.
      + intros [= <- <-] _. cbn. right. right. right. rewrite upd_same.
        repeat split; auto; try (intros (o & E & _); discriminate E); [intros (o & r' & E & _); discriminate E|constructor].
      + intros [= <- <-] _. cbn. right. right. right. rewrite upd_same.
        repeat split; auto; try (intros (o & E & _); discriminate E); [intros (o & r' & E & _); discriminate E|constructor].
    - intros [= <- <-] _. cbn. right. right. right. rewrite upd_same.
      repeat split; auto; try (intros (o & E & _); discriminate E); [intros (o & r' & E & _); discriminate E|constructor].
  Qed.

  (** *** Invariant *)
  (** no line of its own in /repo: specification and invariant *)
  Record ginv (g : gstate) : Prop := {
    v_wr : forall i, st_wr (g_st g) = Some i -> g_pend g = Some i /\ g_grant g = [];
    v_none : g_pend g = None -> g_wq g = [];
    v_wq : forall i, In i (g_wq g) -> wants (g_st g) i true;
    v_gr : forall i, In i (g_grant g) -> wants (g_st g) i true;
    v_pend : forall i, g_pend g = Some i -> wants (g_st g) i false \/ st_wr (g_st g) = Some i;
    v_disj : forall i, In i (g_wq g) -> ~ In i (g_grant g) }.

  (** no line of its own in /repo: specification and invariant *)
  Definition base (s : state) : Prop :=
    (forall i, st_wr s = Some i -> st_rd s = [] /\ exists op p, thr s i = Inside op p /\ reader op = false) /\
    (forall i, In i (st_rd s) -> exists op p, thr s i = Inside op p /\ reader op = true) /\
    (forall i op p, thr s i = Inside op p ->
       (reader op = true -> In i (st_rd s)) /\ (reader op = false -> st_wr s = Some i)).
  Lemma reach_base m0 tr s : reach m0 tr s -> base s.
  Proof.
    intros R. destruct (inv_reach _ _ _ _ _ _ readers_write_free direct_code _ _ _ R) as (lin & m & I).
    destruct I as [_ _ _ _ _ _ _ Iwr Ird Iin _]. split; [|split].
    - intros i E. rewrite E in Iwr. destruct Iwr as (X & op & p & Y & Z & _). eauto 6.
    - exact Ird.
    - intros i op p T. destruct (Iin i op p T) as (X & Y). split; [intros K; apply (X K)|exact Y].
  Qed.

  Lemma wd_wants s i b : write_done s i -> wants s i b -> False.
  Proof. intros (o & r & T & _) (o' & T' & _). rewrite T in T'. discriminate T'. Qed.

  Lemma ginv_step g o e g' : base (g_st g) -> base (g_st g') -> ginv g -> gstep g o e g' -> crashed (g_st g') = false -> ginv g'.
  Proof.
    intros B B' I S Cr.
    destruct S as [g|s p q gr i op e s' X|s p q gr i e s' N1 N2 N3 X|s q gr i e s' W NG X|s w q gr i W NQ NG Cr0
                  |s p q gr i e s' IG X|s q gr i W Cr0|s q i e s' W X|s p q gr i e s' W X];
      cbn [g_st g_pend g_wq g_grant] in *; try exact I;
      destruct I as [A Bn Cq Cg Dp E]; cbn [g_st g_pend g_wq g_grant] in *.
    - destruct (arrive_frame _ _ _ _ _ X) as (AB & FR & WR & RD).
      assert (NE : forall j b, wants s j b -> j <> i) by (intros j b (o & T & _) ->; congruence).
      constructor; cbn [g_st g_pend g_wq g_grant]; auto; try rewrite WR; auto.
      + intros j J. eapply wants_frame; [|apply Cq, J]. eauto.
      + intros j J. eapply wants_frame; [|apply Cg, J]. eauto.
      + intros j J. destruct (Dp j J) as [D|D]; auto. left. eapply wants_frame; [|exact D]. eauto.
    - (* plain *)
      pose proof (exec1_frame _ _ _ _ X) as FR.
      destruct (exec1_cases _ _ _ _ X Cr) as [(Y & _)|[(Y & _)|[(Y & _)|(_ & _ & _ & WR & _)]]]; try contradiction.
      constructor; cbn [g_st g_pend g_wq g_grant]; auto; try rewrite WR; auto.
      + intros j J. eapply wants_frame; [|apply Cq, J]. apply FR. intros ->. apply N1, Cq, J.
      + intros j J. eapply wants_frame; [|apply Cg, J]. apply FR. intros ->. apply N1, Cg, J.
      + intros j J. destruct (Dp j J) as [D|D]; auto. left. eapply wants_frame; [|exact D]. apply FR. intros ->. auto.
    - (* rlock *)
      pose proof (exec1_frame _ _ _ _ X) as FR.
      destruct (exec1_cases _ _ _ _ X Cr) as [(_ & W0 & W1 & RD & _)|[(Y & _)|[(Y & _)|(Y & _)]]];
        [|exfalso; eapply wants_fun; eauto|exfalso; eapply wd_wants; eauto|contradiction].
      constructor; cbn [g_st g_pend g_wq g_grant]; auto; try rewrite W1; try discriminate.
      + rewrite Bn by auto. intros j [].
      + intros j J. eapply wants_frame; [|apply Cg, J]. apply FR. intros ->. contradiction.
    - (* rwait *)
      constructor; cbn [g_st g_pend g_wq g_grant]; auto; try discriminate.
      + intros j [<-|J]; auto.
      + intros j [<-|J]; auto.
    - (* enter *)
      pose proof (exec1_frame _ _ _ _ X) as FR. pose proof (Cg i IG) as W.
      destruct (exec1_cases _ _ _ _ X Cr) as [(_ & W0 & W1 & RD & _)|[(Y & _)|[(Y & _)|(Y & _)]]];
        [|exfalso; eapply wants_fun; eauto|exfalso; eapply wd_wants; eauto|contradiction].
      constructor; cbn [g_st g_pend g_wq g_grant]; auto; try rewrite W1; try discriminate.
      + intros j J. eapply wants_frame; [|apply Cq, J]. apply FR. intros ->. exact (E i J IG).
      + intros j J. apply in_remove in J as [J NJ]. eapply wants_frame; [|apply Cg, J]. auto.
      + intros j J. destruct (Dp j J) as [D|D]; [|congruence]. left. eapply wants_frame; [|exact D].
        apply FR. intros ->. eapply wants_fun; eauto.
      + intros j J K. apply in_remove in K as [K _]. exact (E j J K).
    - (* announce *)
      constructor; cbn [g_st g_pend g_wq g_grant]; auto; try discriminate.
      + intros j J. destruct (A j J) as (Y & _). discriminate Y.
      + intros j [= <-]. auto.
    - (* lock *)
      pose proof (exec1_frame _ _ _ _ X) as FR.
      destruct (exec1_cases _ _ _ _ X Cr) as [(Y & _)|[(_ & W0 & R0 & W1 & R1 & _)|[(Y & _)|(_ & Y & _)]]];
        [exfalso; eapply wants_fun; eauto| |exfalso; eapply wd_wants; eauto|contradiction].
      constructor; cbn [g_st g_pend g_wq g_grant]; auto; try rewrite W1; try discriminate.
      + intros j [= <-]. auto.
      + intros j J. eapply wants_frame; [|apply Cq, J]. apply FR. intros ->. eapply wants_fun; eauto.
      + intros j [].
      + intros j J. right. congruence.
    - (* unlock *)
      pose proof (exec1_frame _ _ _ _ X) as FR.
      destruct (exec1_cases _ _ _ _ X Cr) as [(Y & _)|[(Y & _)|[(_ & W1 & R1 & _)|(_ & _ & Y & _)]]];
        [exfalso; eapply wd_wants; eauto|exfalso; eapply wd_wants; eauto| |contradiction].
      constructor; cbn [g_st g_pend g_wq g_grant]; auto; try rewrite W1; try discriminate.
      + intros j [].
      + intros j J. eapply wants_frame; [|apply Cq, J]. apply FR. intros ->. eapply wd_wants; eauto.
  Qed.

  (** What a goroutine does, by its phase. *)
  Lemma gstep_inside g i e g' op p : ginv g -> gstep g (Some i) e g' -> crashed (g_st g') = false ->
    thr (g_st g) i = Inside op p -> ph_lt (thr (g_st g') i) (Inside op p).
  Proof.
    intros I S Cr T.
    assert (Q : forall b, ~ wants (g_st g) i b) by (intros b (o & E & _); rewrite T in E; discriminate E).
    remember (Some i) as o eqn:O. rewrite <- T.
    assert (Z : forall e s', exec1 (g_st g) (Move Op i) = Some (e, s') -> crashed s' = false ->
      ph_lt (thr s' i) (thr (g_st g) i)).
    { intros e' s' X Cr'. destruct (exec1_cases _ _ _ _ X Cr') as [(Y & _)|[(Y & _)|[(_ & _ & _ & o' & r & Y1 & Y2)|Y]]].
      - exfalso. eapply Q; eauto.
      - exfalso. eapply Q; eauto.
      - rewrite Y1, Y2. constructor.
      - apply Y. }
    destruct S as [g|s pe q gr j op' e s' X|s pe q gr j e s' N1 N2 N3 X|s q gr j e s' W NG X|s w q gr j W NQ NG Cr0
                  |s pe q gr j e s' IG X|s q gr j W Cr0|s q j e s' W X|s pe q gr j e s' W X];
      try discriminate O; injection O as ->; cbn [g_st] in *; try (eapply Z; eassumption);
      try (exfalso; eapply Q; eassumption).
    exfalso. apply arrive_frame in X as (AB & _). congruence.
  Qed.

  Ltac gcases S O :=
    destruct S as [gx|s pe q gr j op' e s' X|s pe q gr j e s' P1 P2 P3 X|s q gr j e s' W NG X|s wx q gr j W NQ NG Cr0
                  |s pe q gr j e s' IG X|s q gr j W Cr0|s q j e s' W X|s pe q gr j e s' W X];
      cbn [g_st g_pend g_wq g_grant] in *.

  (** no line of its own in /repo: specification and invariant *)
  Definition holder (g : gstate) (j : nat) : Prop := In j (st_rd (g_st g)) \/ In j (g_grant g).

  (** While a writer waits, no reader is added. *)
  Lemma gstep_pending g o e g' i : base (g_st g) -> ginv g -> gstep g o e g' -> crashed (g_st g') = false ->
    g_pend g = Some i -> wants (g_st g) i false ->
    (exists op, thr (g_st g') i = Inside op (code op)) \/
    (g_pend g' = Some i /\ wants (g_st g') i false /\ forall j, holder g' j -> holder g j).
  Proof.
    intros B I S Cr P WI. unfold holder.
    gcases S O; auto; try discriminate P.
    - right. destruct (arrive_frame _ _ _ _ _ X) as (AB & FR & WR & RD). rewrite RD. split; [exact P|]. split; [|auto].
      eapply wants_frame; [|exact WI]. apply FR. intros ->. destruct WI as (o & T & _). congruence.
    - right. pose proof (exec1_frame _ _ _ _ X) as FR.
      destruct (exec1_cases _ _ _ _ X Cr) as [(Y & _)|[(Y & _)|[(Y & _)|(_ & _ & _ & WR & R1 & _)]]]; try contradiction.
      split; [exact P|]. split.
      + eapply wants_frame; [|exact WI]. apply FR. intros ->. auto.
      + intros k [K|K]; auto.
    - right. pose proof (exec1_frame _ _ _ _ X) as FR. pose proof (v_gr _ I j IG) as W. cbn [g_st] in W.
      destruct (exec1_cases _ _ _ _ X Cr) as [(_ & W0 & W1 & RD & _)|[(Y & _)|[(Y & _)|(Y & _)]]];
        [|exfalso; eapply wants_fun; eauto|exfalso; eapply wd_wants; eauto|contradiction].
      split; [exact P|]. split.
      + eapply wants_frame; [|exact WI]. apply FR. intros ->. eapply wants_fun; eauto.
      + rewrite RD. intros k [[<-|K]|K]; auto. apply in_remove in K as [K _]. auto.
    - left. injection P as ->.
      destruct (exec1_cases _ _ _ _ X Cr) as [(Y & _)|[(_ & W0 & R0 & W1 & R1 & op & _ & Y)|[(Y & _)|(_ & Y & _)]]];
        [exfalso; eapply wants_fun; eauto| |exfalso; eapply wd_wants; eauto|contradiction].
      eauto.
    - exfalso. destruct W as (op & r & T & R). destruct B as (_ & _ & B). destruct (B _ _ _ T) as (_ & B').
      destruct (v_wr _ I j (B' R)) as (Y & _). cbn in Y. rewrite P in Y. injection Y as ->.
      destruct WI as (o & T' & _). congruence.
  Qed.

  (** The move of a waiting writer is to enter. *)
  Lemma gstep_writer g i e g' : ginv g -> gstep g (Some i) e g' -> crashed (g_st g') = false ->
    wants (g_st g) i false ->
    g_pend g' = Some i /\ (wants (g_st g') i false \/ exists op, thr (g_st g') i = Inside op (code op)) /\
    (g_pend g = Some i -> exists op, thr (g_st g') i = Inside op (code op)).
  Proof.
    intros I S Cr WI. remember (Some i) as o eqn:O.
    gcases S O; try discriminate O; injection O as ->; try (exfalso; eapply wants_fun; eassumption); try contradiction.
    - exfalso. apply arrive_frame in X as (AB & _). destruct WI as (o & T & _). congruence.
    - exfalso. eapply wants_fun; [|exact WI]. apply (v_gr _ I i IG).
    - split; [reflexivity|]. split; [auto|]. discriminate.
    - destruct (exec1_cases _ _ _ _ X Cr) as [(Y & _)|[(_ & W0 & R0 & W1 & R1 & op & _ & Y)|[(Y & _)|(_ & Y & _)]]];
        [exfalso; eapply wants_fun; eauto| |exfalso; eapply wd_wants; eauto|contradiction].
      split; [reflexivity|]. split; [right; eauto|eauto].
    - exfalso. eapply wd_wants; eauto.
  Qed.

  (** The move of a reader: it enters, or goes to sleep behind a writer. *)
  Lemma gstep_reader g i e g' : ginv g -> gstep g (Some i) e g' -> crashed (g_st g') = false ->
    wants (g_st g) i true ->
    (exists op, thr (g_st g') i = Inside op (code op)) \/ (~ In i (g_grant g) /\ In i (g_wq g')).
  Proof.
    intros I S Cr WI. remember (Some i) as o eqn:O.
    gcases S O; try discriminate O; injection O as ->; try (exfalso; eapply wants_fun; eassumption); try contradiction.
    - exfalso. apply arrive_frame in X as (AB & _). destruct WI as (o & T & _). congruence.
    - left. destruct (exec1_cases _ _ _ _ X Cr) as [(_ & W0 & W1 & RD & op & _ & Y)|[(Y & _)|[(Y & _)|(Y & _)]]];
        [|exfalso; eapply wants_fun; eauto|exfalso; eapply wd_wants; eauto|contradiction]. eauto.
    - right. split; [assumption|left; reflexivity].
    - left. destruct (exec1_cases _ _ _ _ X Cr) as [(_ & W0 & W1 & RD & op & _ & Y)|[(Y & _)|[(Y & _)|(Y & _)]]];
        [|exfalso; eapply wants_fun; eauto|exfalso; eapply wd_wants; eauto|contradiction]. eauto.
    - exfalso. eapply wd_wants; eauto.
  Qed.

  (** A sleeping reader stays behind the same writer until it is woken; a woken
      one stays woken until it moves. *)
  Lemma gstep_asleep g o e g' i w : gstep g o e g' -> In i (g_wq g) -> g_pend g = Some w ->
    (In i (g_wq g') /\ g_pend g' = Some w) \/ In i (g_grant g').
  Proof.
    intros S Q P. gcases S O; auto; try discriminate P. left. split; auto. right. exact Q.
  Qed.
  Lemma gstep_woken g o e g' i : base (g_st g) -> ginv g -> gstep g o e g' -> In i (g_grant g) -> o <> Some i -> In i (g_grant g').
  Proof.
    intros B I S Q N. gcases S O; auto.
    - apply in_in_remove; auto.
    - exfalso. destruct W as (op & r & T & R). destruct B as (_ & _ & B). destruct (B _ _ _ T) as (_ & B').
      destruct (v_wr _ I j (B' R)) as (_ & Y). cbn in Y. rewrite Y in Q. destruct Q.
  Qed.
  Lemma gstep_pend g o e g' w : gstep g o e g' -> g_pend g = Some w -> g_pend g' = Some w \/ g_pend g' = None.
  Proof. intros S P. gcases S O; auto; discriminate P. Qed.

  (** *** A fixed fair run that never crashes *)
  Section Run.
    Variables (m0 : Mem) (g : nat -> gstate) (mv : nat -> option nat) (tr : nat -> list event).
    Hypothesis F : fair_run m0 g mv tr.
    Hypothesis NC : forall n, crashed (g_st (g n)) = false.

    Lemma run_reach n : reach m0 (tr n) (g_st (g n)).
    Proof.
      induction n as [|n IH].
      - destruct (fr_init _ _ _ _ F) as (-> & ->). constructor.
      - destruct (fr_step _ _ _ _ F n) as (e & S & ->). eapply gstep_reach; eauto.
    Qed.
    Lemma run_base n : base (g_st (g n)).
    Proof. eapply reach_base, run_reach. Qed.
    Lemma run_ginv n : ginv (g n).
    Proof.
      induction n as [|n IH].
      - destruct (fr_init _ _ _ _ F) as (-> & _). constructor; cbn; try discriminate; tauto.
      - destruct (fr_step _ _ _ _ F n) as (e & S & _). eapply ginv_step; eauto using run_base.
    Qed.

    Lemma stay i n : mv n <> Some i -> thr (g_st (g (S n))) i = thr (g_st (g n)) i.
    Proof.
      intros N. destruct (fr_step _ _ _ _ F n) as (e & S & _). destruct (mv n) as [j|].
      - eapply gstep_frame; [exact S|]. congruence.
      - inversion S. subst. congruence.
    Qed.
    Lemma stay_to i n m : n <= m -> (forall k, n <= k < m -> mv k <> Some i) -> thr (g_st (g m)) i = thr (g_st (g n)) i.
    Proof.
      intros L H. induction L as [|m L IH]; [reflexivity|]. rewrite stay; [|apply H; lia]. apply IH. intros k K. apply H. lia.
    Qed.

    (** the first move of [i] within a range *)
    Lemma first_move i n m : n <= m -> (forall k, n <= k < m -> mv k <> Some i) \/
      exists k, n <= k < m /\ mv k = Some i /\ forall k', n <= k' < k -> mv k' <> Some i.
    Proof.
      intros L. induction L as [|m L IH]; [left; intros; lia|].
      destruct IH as [IH|(k & K & E & X)]; [|right; exists k; repeat split; auto; lia].
      assert (D : mv m = Some i \/ mv m <> Some i).
      { destruct (mv m) as [j|]; [|right; discriminate]. destruct (Nat.eq_dec j i); [left|right]; congruence. }
      destruct D as [D|D].
      - right. exists m. repeat split; auto.
      - left. intros k K. destruct (Nat.eq_dec k m) as [->|]; [exact D|apply IH; lia].
    Qed.

    Lemma next_move i n :
      (forall m, n <= m -> (forall k, n <= k < m -> mv k <> Some i) -> enabled (g m) i) ->
      exists m, n <= m /\ mv m = Some i /\ thr (g_st (g m)) i = thr (g_st (g n)) i /\
        forall k, n <= k < m -> mv k <> Some i.
    Proof.
      intros EN. destruct (fr_sched _ _ _ _ F i n) as (m & L & H).
      destruct (first_move i n m L) as [NO|(k & K & E & X)].
      - exists m. split; [exact L|]. split; [|split; [apply stay_to; auto|auto]].
        destruct H as [H|H]; [exact H|]. exfalso. apply H. apply EN; auto.
      - exists k. repeat split; auto; try lia. apply stay_to; [lia|auto].
    Qed.

    Lemma inside_enabled n i op p : thr (g_st (g n)) i = Inside op p -> enabled (g n) i.
    Proof.
      intros T. split; [rewrite T; discriminate|]. pose proof (NC n) as Cr.
      destruct (g n) as [s pe q gr] eqn:G. cbn [g_st] in *.
      assert (X : exists e s', exec1 s (Move Op i) = Some (e, s')).
      { destruct s as [m w rd t c]. cbn in Cr, T |- *. subst c. rewrite T. destruct p; [destruct (reader op)|..]; eauto. }
      destruct X as (e & s' & X).
      assert (W : write_done s i \/ ~ write_done s i).
      { destruct p as [r| |k|f k]; try (right; intros (o & r' & E & _); rewrite T in E; discriminate E).
        destruct (reader op) eqn:R.
        - right. intros (o & r' & E & Y). rewrite T in E. injection E as <- <-. congruence.
        - left. exists op, r. auto. }
      destruct W as [W|W]; [exists e; eexists; eapply g_unlock; eauto|].
      exists e. eexists. eapply g_plain; eauto; intros (o & E & _); rewrite T in E; discriminate E.
    Qed.

    Lemma inside_move n i op p : thr (g_st (g n)) i = Inside op p -> mv n = Some i ->
      ph_lt (thr (g_st (g (S n))) i) (Inside op p).
    Proof.
      intros T M. destruct (fr_step _ _ _ _ F n) as (e & S & _). rewrite M in S.
      eapply gstep_inside; eauto using run_ginv.
    Qed.

    (** L2: who is inside comes out *)
    Lemma inside_out i op p : forall n, thr (g_st (g n)) i = Inside op p ->
      exists m r, n <= m /\ thr (g_st (g m)) i = Released op r.
    Proof.
      assert (ONE : forall q n, thr (g_st (g n)) i = Inside op q -> exists m, n <= m /\ ph_lt (thr (g_st (g (S m))) i) (Inside op q)).
      { intros q n T. destruct (next_move i n) as (m & L & M & E & _).
        - intros m L NM. apply (inside_enabled m i op q). rewrite (stay_to i n m L NM). exact T.
        - exists m. split; [exact L|]. apply inside_move; congruence. }
      induction p as [r| |k IH|f k IH]; intros n T; destruct (ONE _ n T) as (m & L & LT).
      - inversion LT. exists (S m), r. split; [lia|congruence].
      - inversion LT.
      - inversion LT as [| |? ? mm E1 E2| | |]. subst. symmetry in E1. destruct (IH mm (S m) E1) as (m' & r & L' & X).
        exists m', r. split; [lia|exact X].
      - inversion LT as [| | |? ? ? E1 E2| |]. subst. symmetry in E1. destruct (IH (S m) E1) as (m' & r & L' & X).
        exists m', r. split; [lia|exact X].
    Qed.

    Lemma can_move n i op : thr (g_st (g n)) i = Ready op -> direct op = None ->
      (reader op = true -> st_wr (g_st (g n)) = None) ->
      (reader op = false -> st_wr (g_st (g n)) = None /\ st_rd (g_st (g n)) = []) ->
      exists e s', exec1 (g_st (g n)) (Move Op i) = Some (e, s').
    Proof.
      intros T D R W. pose proof (NC n) as Cr. destruct (g_st (g n)) as [m w rd t c]. cbn in *. subst c. rewrite T, D.
      destruct (reader op); [rewrite R by auto; eauto|]. destruct W as (-> & ->); auto. eauto.
    Qed.

    Lemma released_sent i op r n : thr (g_st (g n)) i = Released op r -> exists m, n <= m /\ thr (g_st (g m)) i = Sent op r.
    Proof.
      intros T.
      assert (NW : forall m, thr (g_st (g m)) i = Released op r -> (forall b, ~ wants (g_st (g m)) i b) /\ ~ write_done (g_st (g m)) i).
      { intros m E. split; [intros b (o & E' & _)|intros (o & r' & E' & _)]; congruence. }
      destruct (next_move i n) as (m & L & M & E & _).
      - intros m L NM. pose proof (stay_to i n m L NM) as E. rewrite T in E. destruct (NW m E) as (N1 & N2).
        split; [congruence|]. pose proof (NC m) as Cr. destruct (g m) as [s pe q gr]. cbn [g_st] in *.
        assert (X : exists e s', exec1 s (Move Op i) = Some (e, s')).
        { destruct s as [mm w rd t c]. cbn in *. subst c. rewrite E. eauto. }
        destruct X as (e & s' & X). exists e. eexists. eapply g_plain; eauto.
      - exists (S m). split; [lia|]. destruct (fr_step _ _ _ _ F m) as (e & S & _). rewrite M in S. rewrite T in E.
        destruct (NW m E) as (N1 & N2). pose proof (NC (Datatypes.S m)) as Cr. pose proof (run_ginv m) as I.
        revert S Cr I E N1 N2. generalize (g (Datatypes.S m)) as g2. generalize (g m) as g1. clear. intros g1 g2 S Cr I E N1 N2.
        remember (Some i) as o eqn:O.
        gcases S O; try discriminate O; injection O as ->; try (exfalso; eapply N1; eassumption); try contradiction.
        + exfalso. apply arrive_frame in X as (AB & _). congruence.
        + destruct (exec1_cases _ _ _ _ X Cr) as [(Y & _)|[(Y & _)|[(Y & _)|Y]]];
            [exfalso; eapply N1; eauto|exfalso; eapply N1; eauto|contradiction|].
          destruct Y as (_ & _ & _ & _ & _ & _ & Y). rewrite E in Y. inversion Y. congruence.
        + exfalso. eapply N1. apply (v_gr _ I i IG).
    Qed.

    (** A woken reader gets inside. *)
    Lemma woken_in i n : In i (g_grant (g n)) -> exists m op, n <= m /\ thr (g_st (g m)) i = Inside op (code op).
    Proof.
      intros Q.
      assert (K : forall m, n <= m -> (forall k, n <= k < m -> mv k <> Some i) -> In i (g_grant (g m))).
      { induction 1 as [|m L IH]; intros NM; [exact Q|]. destruct (fr_step _ _ _ _ F m) as (e & S & _).
        eapply gstep_woken; [apply run_base|apply run_ginv|exact S| |apply NM; lia]. apply IH. intros; apply NM; lia. }
      destruct (next_move i n) as (m & L & M & E & NM).
      - intros m L NM. pose proof (K m L NM) as Qm. pose proof (v_gr _ (run_ginv m) i Qm) as (op & T & D & R).
        split; [congruence|].
        destruct (can_move m i op T D) as (e & s' & X).
        + intros _. destruct (st_wr (g_st (g m))) as [w|] eqn:W; [|reflexivity].
          destruct (v_wr _ (run_ginv m) w W) as (_ & Y). rewrite Y in Qm. destruct Qm.
        + congruence.
        + destruct (g m) as [s pe q gr]. cbn [g_st g_grant] in *. exists e. eexists. eapply g_enter; eauto.
      - pose proof (K m L NM) as Qm. pose proof (v_gr _ (run_ginv m) i Qm) as W.
        destruct (fr_step _ _ _ _ F m) as (e & S & _). rewrite M in S.
        destruct (gstep_reader _ _ _ _ (run_ginv m) S (NC (Datatypes.S m)) W) as [(op & T)|(NQ & _)]; [|contradiction].
        exists (Datatypes.S m), op. split; [lia|exact T].
    Qed.

    (** A holder lets go, and stays away while a writer waits. *)
    Lemma holder_out j n : holder (g n) j -> exists m, n <= m /\ exists op r, thr (g_st (g m)) j = Released op r.
    Proof.
      intros [H|H].
      - destruct (run_base n) as (_ & B & _). destruct (B j H) as (op & p & T & _).
        destruct (inside_out j op p n T) as (m & r & L & E). eauto 6.
      - destruct (woken_in j n H) as (m & op & L & T).
        destruct (inside_out j op _ m T) as (m' & r & L' & E). exists m'. split; [lia|eauto].
    Qed.

    Lemma pending_to i n m : n <= m -> g_pend (g n) = Some i -> wants (g_st (g n)) i false ->
      (exists k op, n <= k /\ thr (g_st (g k)) i = Inside op (code op)) \/
      (g_pend (g m) = Some i /\ wants (g_st (g m)) i false /\ forall j, holder (g m) j -> holder (g n) j).
    Proof.
      intros L P W. induction L as [|m L [IH|(P' & W' & H')]]; [auto|auto|].
      destruct (fr_step _ _ _ _ F m) as (e & S & _).
      destruct (gstep_pending _ _ _ _ i (run_base m) (run_ginv m) S (NC _) P' W') as [(op & T)|(P2 & W2 & H2)].
      - left. exists (Datatypes.S m), op. split; [lia|exact T].
      - right. auto.
    Qed.

    Lemma pending_in i L : forall n, (forall j, holder (g n) j -> In j L) ->
      g_pend (g n) = Some i -> wants (g_st (g n)) i false ->
      exists k op, n <= k /\ thr (g_st (g k)) i = Inside op (code op).
    Proof.
      induction L as [L IH] using (well_founded_induction (well_founded_ltof _ (@length nat))).
      intros n HL P W.
      assert (D : (st_rd (g_st (g n)) = [] /\ g_grant (g n) = []) \/ exists j, holder (g n) j).
      { unfold holder. destruct (st_rd (g_st (g n))) as [|j rd]; [|right; exists j; left; left; reflexivity].
        destruct (g_grant (g n)) as [|j gr]; [left; auto|right; exists j; right; left; reflexivity]. }
      destruct D as [(R0 & G0)|(j & HJ)].
      - assert (NH : forall m, n <= m -> (exists k op, n <= k /\ thr (g_st (g k)) i = Inside op (code op)) \/
           (g_pend (g m) = Some i /\ wants (g_st (g m)) i false /\ st_rd (g_st (g m)) = [] /\ g_grant (g m) = [])).
        { intros m Lm. destruct (pending_to i n m Lm P W) as [X|(P' & W' & H')]; [auto|right].
          split; [exact P'|]. split; [exact W'|]. unfold holder in H'. rewrite R0, G0 in H'.
          destruct (st_rd (g_st (g m))) as [|j ?]; [|exfalso; destruct (H' j) as [[]|[]]; left; left; reflexivity].
          destruct (g_grant (g m)) as [|j ?]; [auto|exfalso; destruct (H' j) as [[]|[]]; right; left; reflexivity]. }
        destruct (fr_sched _ _ _ _ F i n) as (m & Lm & H).
        destruct (NH m Lm) as [X|(P' & W' & R' & G')]; [exact X|].
        destruct H as [M|NE].
        + destruct (fr_step _ _ _ _ F m) as (e & S & _). rewrite M in S.
          destruct (gstep_writer _ _ _ _ (run_ginv m) S (NC _) W') as (_ & _ & X). destruct (X P') as (op & T).
          exists (Datatypes.S m), op. split; [lia|exact T].
        + exfalso. apply NE. pose proof W' as (op & T & Dr & Rd). split; [congruence|].
          destruct (can_move m i op T Dr) as (e & s' & X).
          * congruence.
          * intros _. split; [|exact R']. destruct (st_wr (g_st (g m))) as [w|] eqn:Wr; [|reflexivity].
            exfalso. destruct (v_wr _ (run_ginv m) w Wr) as (Y & _). rewrite P' in Y. injection Y as <-.
            destruct (run_base m) as (B & _). destruct (B i Wr) as (_ & o & p & T' & _). congruence.
          * destruct (g m) as [s pe q gr]. cbn [g_st g_pend g_grant] in *. subst pe gr. exists e. eexists. eapply g_lock; eauto.
      - destruct (holder_out j n HJ) as (m & Lm & op & r & T).
        destruct (pending_to i n m Lm P W) as [X|(P' & W' & H')]; [exact X|].
        assert (NJ : ~ holder (g m) j).
        { intros [K|K].
          - destruct (run_base m) as (_ & B & _). destruct (B j K) as (o & p & T' & _). congruence.
          - destruct (v_gr _ (run_ginv m) j K) as (o & T' & _). congruence. }
        destruct (IH (remove Nat.eq_dec j L)) with (n := m) as (k & o & Lk & X); auto.
        + unfold ltof. apply remove_length_lt. apply HL, HJ.
        + intros x Hx. apply in_in_remove; [intros ->; contradiction|]. apply HL, H', Hx.
        + exists k, o. split; [lia|exact X].
    Qed.

    (** The writer that owns the inner mutex gets done. *)
    Lemma pend_done w n : g_pend (g n) = Some w -> exists m op r, n <= m /\ thr (g_st (g m)) w = Released op r.
    Proof.
      intros P. destruct (v_pend _ (run_ginv n) w P) as [W|W].
      - destruct (pending_in w (st_rd (g_st (g n)) ++ g_grant (g n)) n) as (k & op & L & T); auto.
        { intros j [H|H]; apply in_or_app; auto. }
        destruct (inside_out w op _ k T) as (m & r & L' & E). exists m, op, r. split; [lia|exact E].
      - destruct (run_base n) as (B & _). destruct (B w W) as (_ & op & p & T & _).
        destruct (inside_out w op p n T) as (m & r & L & E). eauto.
    Qed.
    Lemma pend_free n : exists m, n <= m /\ g_pend (g m) = None.
    Proof.
      destruct (g_pend (g n)) as [w|] eqn:P; [|exists n; auto].
      destruct (pend_done w n P) as (m & op & r & L & T).
      assert (X : forall k, n <= k -> (exists k', n <= k' /\ g_pend (g k') = None) \/ g_pend (g k) = Some w).
      { induction 1 as [|k Lk [IH|IH]]; auto. destruct (fr_step _ _ _ _ F k) as (e & S & _).
        destruct (gstep_pend _ _ _ _ w S IH) as [Y|Y]; [auto|]. left. exists (Datatypes.S k). split; [lia|exact Y]. }
      destruct (X m L) as [Y|Y]; [exact Y|]. exfalso.
      destruct (v_pend _ (run_ginv m) w Y) as [(o & T' & _)|W]; [congruence|].
      destruct (run_base m) as (B & _). destruct (B w W) as (_ & o & p & T' & _). congruence.
    Qed.

    Lemma asleep_woken i n : In i (g_wq (g n)) -> exists m, n <= m /\ In i (g_grant (g m)).
    Proof.
      intros Q. destruct (g_pend (g n)) as [w|] eqn:P.
      2:{ rewrite (v_none _ (run_ginv n) P) in Q. destruct Q. }
      destruct (pend_free n) as (m & L & PN).
      assert (X : forall k, n <= k -> (exists k', n <= k' /\ In i (g_grant (g k'))) \/ (In i (g_wq (g k)) /\ g_pend (g k) = Some w)).
      { induction 1 as [|k Lk [IH|(IH & IH')]]; auto. destruct (fr_step _ _ _ _ F k) as (e & S & _).
        destruct (gstep_asleep _ _ _ _ i w S IH IH') as [Y|Y]; [auto|]. left. exists (Datatypes.S k). split; [lia|exact Y]. }
      destruct (X m L) as [Y|(_ & Y)]; [exact Y|congruence].
    Qed.

    Lemma inside_sent i op p n : thr (g_st (g n)) i = Inside op p -> exists m o r, n <= m /\ thr (g_st (g m)) i = Sent o r.
    Proof.
      intros T. destruct (inside_out i op p n T) as (m & r & L & E). destruct (released_sent i op r m E) as (m' & L' & E').
      exists m', op, r. split; [lia|exact E'].
    Qed.
    Lemma pend_sent i n : g_pend (g n) = Some i -> exists m o r, n <= m /\ thr (g_st (g m)) i = Sent o r.
    Proof.
      intros P. destruct (pend_done i n P) as (m & op & r & L & E). destruct (released_sent i op r m E) as (m' & L' & E').
      exists m', op, r. split; [lia|exact E'].
    Qed.
    Lemma woken_sent i n : In i (g_grant (g n)) -> exists m o r, n <= m /\ thr (g_st (g m)) i = Sent o r.
    Proof.
      intros Q. destruct (woken_in i n Q) as (m & op & L & T). destruct (inside_sent i op _ m T) as (m' & o & r & L' & E).
      exists m', o, r. split; [lia|exact E].
    Qed.
    Lemma asleep_sent i n : In i (g_wq (g n)) -> exists m o r, n <= m /\ thr (g_st (g m)) i = Sent o r.
    Proof.
      intros Q. destruct (asleep_woken i n Q) as (m & L & T). destruct (woken_sent i m T) as (m' & o & r & L' & E).
      exists m', o, r. split; [lia|exact E].
    Qed.

    Theorem all_sent i n : thr (g_st (g n)) i <> Absent -> exists m o r, n <= m /\ thr (g_st (g m)) i = Sent o r.
    Proof.
      intros NA. destruct (thr (g_st (g n)) i) as [|op|op p|op r|op r] eqn:T; [congruence| | | |exists n, op, r; auto].
      2:{ eapply inside_sent; eauto. }
      2:{ destruct (released_sent i op r n T) as (m & L & E). eauto. }
      destruct (direct op) as [r|] eqn:D.
      - (* answered without the lock *)
        assert (NW : forall m, thr (g_st (g m)) i = Ready op -> (forall b, ~ wants (g_st (g m)) i b) /\ ~ write_done (g_st (g m)) i).
        { intros m E. split; [intros b (o & E' & D' & _)|intros (o & r' & E' & _)]; congruence. }
        destruct (next_move i n) as (m & L & M & E & _).
        + intros m L NM. pose proof (stay_to i n m L NM) as E. rewrite T in E. destruct (NW m E) as (N1 & N2).
          split; [congruence|]. pose proof (NC m) as Cr. destruct (g m) as [s pe q gr]. cbn [g_st] in *.
          assert (X : exists e s', exec1 s (Move Op i) = Some (e, s')).
          { destruct s as [mm w rd t c]. cbn in *. subst c. rewrite E, D. eauto. }
          destruct X as (e & s' & X). exists e. eexists. eapply g_plain; eauto.
        + assert (RE : thr (g_st (g (S m))) i = Released op r).
          { destruct (fr_step _ _ _ _ F m) as (e & S & _). rewrite M in S. rewrite T in E.
            destruct (NW m E) as (N1 & N2). pose proof (NC (Datatypes.S m)) as Cr. pose proof (run_ginv m) as I.
            revert S Cr I E N1 N2 D. generalize (g (Datatypes.S m)) as g2. generalize (g m) as g1. clear. intros g1 g2 S Cr I E N1 N2 D.
            remember (Some i) as o eqn:O.
            gcases S O; try discriminate O; injection O as ->; try (exfalso; eapply N1; eassumption); try contradiction.
            - exfalso. apply arrive_frame in X as (AB & _). congruence.
            - destruct s as [mm w rd t c]. cbn in X, E, Cr |- *. destruct c; [discriminate X|].
              rewrite E, D in X. injection X as <- <-. cbn. apply upd_same.
            - exfalso. eapply N1. apply (v_gr _ I i IG). }
          destruct (released_sent i op r (S m) RE) as (m' & L' & E'). exists m', op, r. split; [lia|exact E'].
      - destruct (reader op) eqn:R.
        + (* a reader *)
          assert (W : wants (g_st (g n)) i true) by (exists op; auto).
          destruct (fr_sched _ _ _ _ F i n) as (m & L & H).
          destruct (first_move i n m L) as [NM|(k & K & M & NM)].
          * pose proof (stay_to i n m L NM) as E. rewrite T in E.
            assert (Wm : wants (g_st (g m)) i true) by (exists op; auto).
            destruct (in_dec Nat.eq_dec i (g_wq (g m))) as [Q|NQ].
            { destruct (asleep_sent i m Q) as (m' & o & r & L' & X). exists m', o, r. split; [lia|exact X]. }
            destruct (in_dec Nat.eq_dec i (g_grant (g m))) as [Q|NG].
            { destruct (woken_sent i m Q) as (m' & o & r & L' & X). exists m', o, r. split; [lia|exact X]. }
            destruct H as [M|NE].
            -- destruct (fr_step _ _ _ _ F m) as (e & S & _). rewrite M in S.
               destruct (gstep_reader _ _ _ _ (run_ginv m) S (NC _) Wm) as [(o & X)|(_ & Q)].
               ++ destruct (inside_sent i o _ _ X) as (m' & o' & r & L' & Y). exists m', o', r. split; [lia|exact Y].
               ++ destruct (asleep_sent i _ Q) as (m' & o & r & L' & Y). exists m', o, r. split; [lia|exact Y].
            -- exfalso. apply NE. split; [congruence|].
               destruct (g_pend (g m)) as [w|] eqn:P.
               ++ pose proof (NC m) as Cr. destruct (g m) as [s pe q gr]. cbn [g_st g_pend g_wq g_grant] in *. subst pe.
                  exists None. eexists. eapply g_rwait; eauto.
               ++ destruct (can_move m i op E D) as (e & s' & X).
                  ** intros _. destruct (st_wr (g_st (g m))) as [w|] eqn:Wr; [|reflexivity].
                     destruct (v_wr _ (run_ginv m) w Wr) as (Y & _). congruence.
                  ** congruence.
                  ** destruct (g m) as [s pe q gr]. cbn [g_st g_pend g_wq g_grant] in *. subst pe.
                     exists e. eexists. eapply g_rlock; eauto.
          * assert (E : thr (g_st (g k)) i = Ready op) by (rewrite (stay_to i n k) by (auto; lia); exact T).
            assert (Wk : wants (g_st (g k)) i true) by (exists op; auto).
            destruct (fr_step _ _ _ _ F k) as (e & S & _). rewrite M in S.
            destruct (gstep_reader _ _ _ _ (run_ginv k) S (NC _) Wk) as [(o & X)|(_ & Q)].
            -- destruct (inside_sent i o _ _ X) as (m' & o' & r & L' & Y). exists m', o', r. split; [lia|exact Y].
            -- destruct (asleep_sent i _ Q) as (m' & o & r & L' & Y). exists m', o, r. split; [lia|exact Y].
        + (* a writer *)
          destruct (fr_mutex _ _ _ _ F i n) as (m & L & H); [intros n' _; apply pend_free|].
          assert (K : exists k, n <= k /\ mv k = Some i /\ thr (g_st (g k)) i = Ready op).
          { destruct (first_move i n m L) as [NM|(k & K & M & NM)].
            - pose proof (stay_to i n m L NM) as E. rewrite T in E. exists m. split; [exact L|]. split; [|exact E].
              destruct H as [H|H]; [exact H|]. exfalso. apply H. exists op. auto.
            - exists k. split; [lia|]. split; [exact M|]. rewrite (stay_to i n k) by (auto; lia). exact T. }
          destruct K as (k & Lk & M & E).
          assert (Wk : wants (g_st (g k)) i false) by (exists op; auto).
          destruct (fr_step _ _ _ _ F k) as (e & S & _). rewrite M in S.
          destruct (gstep_writer _ _ _ _ (run_ginv k) S (NC _) Wk) as (P & _).
          destruct (pend_sent i _ P) as (m' & o & r & L' & Y). exists m', o, r. split; [lia|exact Y].
    Qed.
  End Run.

  (** ** Running a given schedule, and resting when it has been worked off (for
      concrete cases) *)
  (** no line of its own in /repo: specification and invariant *)
  Definition mem_nat (i : nat) (l : list nat) : bool := existsb (Nat.eqb i) l.
  (** no line of its own in /repo: specification and invariant *)
  Definition lift (o : option (option event * state)) (f : state -> gstate) : option (option event * gstate) :=
    match o with Some (e, s) => Some (e, f s) | None => None end.
  (** sync.RWMutex as used by application/serverbase.go:195-291 *)
  Definition gact (gg : gstate) (a : action Op) : option (option event * gstate) :=
    let '(mkG s p q gr) := gg in
    match a with
    | Invoke _ i op => lift (exec1 s a) (fun s' => mkG s' p q gr)
    | Move _ i =>
        match thr s i with
        | Conc.Ready _ _ _ op =>
            match direct op with
            | Some _ => lift (exec1 s a) (fun s' => mkG s' p q gr)
            | None =>
                if crashed s then None
                else if reader op then
                  if mem_nat i gr then lift (exec1 s a) (fun s' => mkG s' p q (remove Nat.eq_dec i gr))
                  else match p with
                       | None => lift (exec1 s a) (fun s' => mkG s' p q gr)
                       | Some _ => if mem_nat i q then None else Some (None, mkG s p (i :: q) gr)
                       end
                else match p with
                     | None => Some (None, mkG s (Some i) q gr)
                     | Some w => match gr with
                                 | [] => if Nat.eqb w i then lift (exec1 s a) (fun s' => mkG s' p q []) else None
                                 | _ => None
                                 end
                     end
            end
        | Conc.Inside _ _ _ op (Ret r) =>
            if reader op then lift (exec1 s a) (fun s' => mkG s' p q gr)
            else lift (exec1 s a) (fun s' => mkG s' None [] q)
        | _ => lift (exec1 s a) (fun s' => mkG s' p q gr)
        end
    end.
  (** sync.RWMutex as used by application/serverbase.go:195-291 *)
  Definition actor (a : action Op) : nat := match a with Invoke _ i _ => i | Move _ i => i end.

  Lemma mem_nat_in i l : mem_nat i l = true <-> In i l.
  Proof.
    unfold mem_nat. rewrite existsb_exists. split.
    - intros (x & H & E). apply Nat.eqb_eq in E. subst. exact H.
    - intros H. exists i. split; [exact H|apply Nat.eqb_refl].
  Qed.
  Lemma mem_nat_out i l : mem_nat i l = false -> ~ In i l.
  Proof. intros E H. apply mem_nat_in in H. congruence. Qed.

  Lemma lift_inv o f e gg : lift o f = Some (e, gg) -> exists s, o = Some (e, s) /\ gg = f s.
  Proof. destruct o as [[e' s]|]; cbn; [|discriminate]. intros [= <- <-]. eauto. Qed.

  Lemma gact_step gg a e gg' : gact gg a = Some (e, gg') -> gstep gg (Some (actor a)) e gg'.
  Proof.
    destruct gg as [s p q gr]. destruct a as [i op|i]; unfold gact; cbn [actor].
    - intros H. apply lift_inv in H as (s' & X & ->). eapply g_arrive; eauto.
    - destruct (thr s i) as [|op|op pp|op r|op r] eqn:T.
      + intros H. apply lift_inv in H as (s' & X & ->). eapply g_plain; eauto;
          [intros (o & E & _)|intros (o & E & _)|intros (o & r' & E & _)]; congruence.
      + destruct (direct op) as [r|] eqn:D.
        { intros H. apply lift_inv in H as (s' & X & ->). eapply g_plain; eauto;
            [intros (o & E & E' & _)|intros (o & E & E' & _)|intros (o & r' & E & _)]; congruence. }
        destruct (crashed s) eqn:Cr; [discriminate|].
        destruct (reader op) eqn:R.
        * destruct (mem_nat i gr) eqn:M.
          { intros H. apply lift_inv in H as (s' & X & ->). eapply g_enter; eauto. apply mem_nat_in, M. }
          apply mem_nat_out in M. assert (W : wants s i true) by (exists op; auto).
          destruct p as [w|].
          -- destruct (mem_nat i q) eqn:MQ; [discriminate|]. intros [= <- <-]. apply mem_nat_out in MQ. eapply g_rwait; eauto.
          -- intros H. apply lift_inv in H as (s' & X & ->). eapply g_rlock; eauto.
        * assert (W : wants s i false) by (exists op; auto). destruct p as [w|].
          -- destruct gr as [|? ?]; [|discriminate]. destruct (Nat.eqb_spec w i) as [->|]; [|discriminate].
             intros H. apply lift_inv in H as (s' & X & ->). eapply g_lock; eauto.
          -- intros [= <- <-]. eapply g_announce; eauto.
      + assert (PL : forall gg', (forall r, pp = Ret r -> reader op = true) ->
          lift (exec1 s (Move Op i)) (fun s' => mkG s' p q gr) = Some (e, gg') -> gstep (mkG s p q gr) (Some i) e gg').
        { intros gg2 NR H. apply lift_inv in H as (s' & X & ->). eapply g_plain; eauto;
            [intros (o & E & _)|intros (o & E & _)|intros (o & r' & E & E')]; try congruence.
          rewrite T in E. injection E as <- ->. rewrite (NR _ eq_refl) in E'. discriminate E'. }
        destruct pp as [r| |k|f k]; try (apply PL; discriminate).
        destruct (reader op) eqn:R; [apply PL; auto|].
        intros H. apply lift_inv in H as (s' & X & ->). eapply g_unlock; eauto. exists op, r. auto.
      + intros H. apply lift_inv in H as (s' & X & ->). eapply g_plain; eauto;
          [intros (o & E & _)|intros (o & E & _)|intros (o & r' & E & _)]; congruence.
      + intros H. apply lift_inv in H as (s' & X & ->). eapply g_plain; eauto;
          [intros (o & E & _)|intros (o & E & _)|intros (o & r' & E & _)]; congruence.
  Qed.

  (** An action that is impossible is skipped. *)
  (** sync.RWMutex as used by application/serverbase.go:195-291 *)
  Definition gnext (x : gstate * list event) (a : action Op) : gstate * list event :=
    match gact (fst x) a with Some (e, gg') => (gg', snd x ++ opt_list e) | None => x end.
  (** sync.RWMutex as used by application/serverbase.go:195-291 *)
  Definition g0 (m0 : Mem) : gstate * list event := (mkG (initial Mem Resp Op m0) None [] [], []).
  (** sync.RWMutex as used by application/serverbase.go:195-291 *)
  Definition gexec (m0 : Mem) (l : list (action Op)) : gstate * list event := fold_left gnext l (g0 m0).

  Lemma gnext_frame x a i : i <> actor a -> thr (g_st (fst (gnext x a))) i = thr (g_st (fst x)) i.
  Proof.
    intros N. unfold gnext. destruct (gact (fst x) a) as [[e gg]|] eqn:A; [|reflexivity]. cbn [fst].
    apply gact_step in A. eapply gstep_frame; eauto.
  Qed.
  Lemma gexec_absent m0 l i : ~ In i (map actor l) -> thr (g_st (fst (gexec m0 l))) i = Absent.
  Proof.
    unfold gexec. assert (X : forall x, thr (g_st (fst x)) i = Absent -> ~ In i (map actor l) ->
      thr (g_st (fst (fold_left gnext l x))) i = Absent).
    { induction l as [|a l IH]; intros x E N; [exact E|]. cbn [fold_left]. apply IH.
      - rewrite gnext_frame; [exact E|]. intros ->. apply N. left. reflexivity.
      - intros H. apply N. right. exact H. }
    intros N. apply X; auto.
  Qed.

  (** no line of its own in /repo: specification and invariant *)
  Definition answered (ph : phase) : bool := match ph with Conc.Sent _ _ _ _ _ | Conc.Absent _ _ _ => true | _ => false end.

  Lemma gexec_fair m0 l : forallb (fun i => answered (thr (g_st (fst (gexec m0 l))) i)) (map actor l) = true ->
    exists g mv tr, fair_run m0 g mv tr /\ forall n, length l <= n -> (g n, tr n) = gexec m0 l.
  Proof.
    intros Q. set (G := fun n => gexec m0 (firstn n l)).
    assert (END : forall n, length l <= n -> G n = gexec m0 l) by (intros n L; unfold G; rewrite firstn_all2; auto).
    assert (QQ : forall i, answered (thr (g_st (fst (gexec m0 l))) i) = true).
    { intros i. destruct (in_dec Nat.eq_dec i (map actor l)) as [I|I].
      - rewrite forallb_forall in Q. apply Q, I.
      - rewrite gexec_absent by auto. reflexivity. }
    exists (fun n => fst (G n)),
      (fun n => match nth_error l n with
                | Some a => match gact (fst (G n)) a with Some _ => Some (actor a) | None => None end
                | None => None end),
      (fun n => snd (G n)).
    split; [constructor|].
    - unfold G. cbn. auto.
    - intros n. destruct (nth_error l n) as [a|] eqn:NE.
      + assert (SN : G (S n) = gnext (G n) a).
        { unfold G. assert (FS : firstn (S n) l = firstn n l ++ [a]).
          { clear - NE. revert n NE. induction l as [|b l IH]; intros [|n] NE; try discriminate NE.
            - injection NE as ->. reflexivity.
            - cbn in NE |- *. f_equal. apply IH, NE. }
          rewrite FS. unfold gexec. rewrite fold_left_app. reflexivity. }
        rewrite SN. unfold gnext. destruct (gact (fst (G n)) a) as [[e gg']|] eqn:A.
        * exists e. split; [apply gact_step, A|reflexivity].
        * exists None. split; [constructor|]. cbn. rewrite app_nil_r. reflexivity.
      + apply nth_error_None in NE. rewrite !END by lia. exists None. split; [constructor|]. cbn. rewrite app_nil_r. reflexivity.
    - intros i n. exists (Nat.max n (length l)). split; [lia|]. right. rewrite END by lia.
      intros (NA & e & gg' & S). specialize (QQ i).
      destruct (fst (gexec m0 l)) as [s p q gr]. cbn [g_st] in *.
      assert (NM : forall e s', exec1 s (Move Op i) <> Some (e, s')).
      { intros e' s' X. destruct s as [m w rd t c]. cbn in X, QQ. destruct c; [discriminate X|].
        destruct (t i); try discriminate QQ; discriminate X. }
      assert (NW : forall b, ~ wants s i b) by (intros b (o & E & _); rewrite E in QQ; discriminate QQ).
      inversion S; subst; try (eapply NM; eassumption); try (eapply NW; eassumption).
      match goal with X : exec1 _ (Invoke _ _ _) = _ |- _ => apply arrive_frame in X as (AB & _) end. congruence.
    - intros i n _. exists (Nat.max n (length l)). split; [lia|]. right. rewrite END by lia.
      intros (o & E & _). specialize (QQ i). rewrite E in QQ. discriminate QQ.
    - intros n L. cbn. rewrite END by exact L. destruct (gexec m0 l); reflexivity.
  Qed.
End Live.
