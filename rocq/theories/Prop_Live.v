(** C82: every request is answered and every epoch update takes place. *)
From Coq Require Import List NArith ZArith Lia Bool Arith.
From Verif Require Import Base Utils Crypto Tree STR PAD PADSpec Protocol Directory DirSpec DirFacts DirMain Prop_Directory
  Json Wire Conc Server ServerFacts ServerWire Prop_Server ConcLive.
Import ListNotations.

Section Runs.
  Context {C : Crypto}.
  (** The server goes on from [s] without new operations arriving, in whatever
      order the scheduler likes, with the events [tr'], and reaches [s']. *)
  Definition goes_on (p : permtable) (torn : Directory -> list Directory)
    (s : state Directory (option Response) srv_op) (tr' : list (event (option Response) srv_op))
    (s' : state Directory (option Response) srv_op) : Prop :=
    quiet_run Directory (option Response) srv_op (srv_code p torn) (srv_reader p) (srv_direct p) s tr' s'.
  (** One such step. *)
  Definition moves (p : permtable) (torn : Directory -> list Directory)
    (s s' : state Directory (option Response) srv_op) : Prop :=
    exists e, step _ _ _ (srv_code p torn) (srv_reader p) (srv_direct p) s e s' /\ forall i op, e <> Some (EInv i op).
  (** An infinite run of the server under Go's lock and a fair scheduler, with
      operations arriving for ever; [tr n] are the events of its first [n] steps. *)
  Definition fair_server (p : permtable) (torn : Directory -> list Directory) (d0 : Directory)
    (g : nat -> gstate Directory (option Response) srv_op) (mv : nat -> option nat)
    (tr : nat -> list (event (option Response) srv_op)) : Prop :=
    fair_run Directory (option Response) srv_op (srv_code p torn) (srv_reader p) (srv_direct p) d0 g mv tr.
End Runs.

Lemma moves_quiet {C : Crypto} p torn s s' :
  moves p torn s s' <-> quiet _ _ _ (srv_code p torn) (srv_reader p) (srv_direct p) s' s.
Proof.
  split; intros (e & S & N); exists e; (split; [exact S|]).
  - intros (i & op & E). exact (N i op E).
  - intros i op E. apply N. exists i, op. exact E.
Qed.

Lemma ticks_app a b : ticks (a ++ b) = ticks a + ticks b.
Proof. unfold ticks. rewrite filter_app, app_length. reflexivity. Qed.

Lemma quiet_ticks {C : Crypto} p torn s tr' s' : goes_on p torn s tr' s' -> ticks tr' = 0.
Proof.
  intros Q. induction Q as [|s tr' s1 e s2 Q IH S N]; [reflexivity|]. rewrite ticks_app, IH. cbn [Nat.add].
  destruct e as [[i op|i r]|]; [|reflexivity|reflexivity]. exfalso. apply N. exists i, op. reflexivity.
Qed.

(** Whatever the scheduler does, once no more operations arrive the server
    comes to rest after finitely many steps, it can come to rest nowhere else
    than with every operation answered, and from every point such an end is
    reached. *)
Theorem C82_every_scheduler_answers : forall (C : Crypto), CryptoOk C ->
  forall dl0 vk sk size r1 r2 p torn d0 tr s,
  Directory_New dl0 vk sk size true r1 r2 = Ok d0 -> server_runs p torn d0 tr s ->
  (N.of_nat (ticks tr) < 2 ^ 64 - 1)%N ->
  (~ exists f : nat -> state Directory (option Response) srv_op, f 0 = s /\ forall n, moves p torn (f n) (f (S n))) /\
  (forall tr' s', goes_on p torn s tr' s' -> (forall s'', ~ moves p torn s' s'') ->
     forall i op, In (EInv i op) tr -> exists r, In (ERes i r) (tr ++ tr')) /\
  (exists tr' s', goes_on p torn s tr' s' /\ forall s'', ~ moves p torn s' s'').
Proof.
  intros C OK dl0 vk sk size r1 r2 p torn d0 tr s N R T.
  pose proof (reach_acc _ _ _ _ _ _ (readers_pure p torn) (direct_is_code p torn) d0 tr s R) as A.
  split; [|split].
  - intros (f & F0 & FS). revert f F0 FS. clear - A. induction A as [s _ IH]. intros f F0 FS.
    apply (IH (f 1)) with (f := fun n => f (S n)); auto.
    rewrite <- F0. apply moves_quiet, FS.
  - intros tr' s' Q ST i op I.
    pose proof (quiet_run_reach _ _ _ _ _ _ d0 tr s tr' s' R Q) as R'.
    assert (T' : (N.of_nat (ticks (tr ++ tr')) < 2 ^ 64 - 1)%N).
    { rewrite ticks_app, (quiet_ticks _ _ _ _ _ Q), Nat.add_0_r. exact T. }
    pose proof (C55_server_never_crashes C OK _ _ _ _ _ _ _ _ _ _ _ N R' T') as Cr.
    destruct (stuck_all_sent _ _ _ _ _ _ (readers_pure p torn) (direct_is_code p torn) d0 _ s' R' Cr) with (i := i) as [E|(o & r & E)].
    + intros s'' K. apply (ST s''). apply moves_quiet. exact K.
    + exfalso. refine (invoked_thr _ _ _ _ _ _ (readers_pure p torn) (direct_is_code p torn) d0 _ s' R' i op _ E).
      apply in_or_app. left. exact I.
    + exists r. exact (sent_in _ _ _ _ _ _ d0 _ s' R' i o r E).
  - clear N T. assert (G : forall s0, Acc (quiet _ _ _ (srv_code p torn) (srv_reader p) (srv_direct p)) s0 ->
      forall tr0, reach (srv_code p torn) (srv_reader p) (srv_direct p) d0 tr0 s0 ->
      forall tr1, goes_on p torn s tr1 s0 -> exists tr' s', goes_on p torn s tr' s' /\ forall s'', ~ moves p torn s' s'').
    { intros s0 A0. induction A0 as [s0 _ IH]. intros tr0 R0 tr1 Q1.
      (* either some goroutine still has to move, and can, or nothing is left *)
      destruct (st_crashed s0) eqn:Cr.
      { exists tr1, s0. split; [exact Q1|]. intros s'' K. apply moves_quiet in K. revert K. apply crashed_stuck. exact Cr. }
      destruct (quiet_dec _ _ _ _ _ _ (readers_pure p torn) (direct_is_code p torn) d0 tr0 s0 R0 Cr) as [(s1 & K)|K].
      - destruct K as (e & S & NA). apply (IH s1) with (tr0 := tr0 ++ opt_list e) (tr1 := tr1 ++ opt_list e).
        + exists e. auto.
        + econstructor; eauto.
        + econstructor; eauto.
      - exists tr1, s0. split; [exact Q1|]. intros s'' M. apply (K s''). apply moves_quiet. exact M. }
    apply (G s A tr R []). constructor.
Qed.
Print Assumptions C82_every_scheduler_answers.

(** And under load: in every fair infinite run, operations arriving for ever,
    every operation is answered. *)
Theorem C82_answered_under_load : forall (C : Crypto), CryptoOk C ->
  forall dl0 vk sk size r1 r2 p torn d0 g mv tr,
  Directory_New dl0 vk sk size true r1 r2 = Ok d0 -> fair_server p torn d0 g mv tr ->
  (forall n, (N.of_nat (ticks (tr n)) < 2 ^ 64 - 1)%N) ->
  forall n i op, In (EInv i op) (tr n) -> exists m r, In (ERes i r) (tr m).
Proof.
  intros C OK dl0 vk sk size r1 r2 p torn d0 g mv tr N F T n i op I.
  assert (RR : forall k, reach (srv_code p torn) (srv_reader p) (srv_direct p) d0 (tr k) (g_st _ _ _ (g k)))
    by (intro k; exact (run_reach _ _ _ _ _ _ d0 g mv tr F k)).
  assert (NC : forall k, st_crashed (g_st _ _ _ (g k)) = false).
  { intro k. exact (C55_server_never_crashes C OK _ _ _ _ _ _ _ _ _ _ _ N (RR k) (T k)). }
  destruct (all_sent _ _ _ _ _ _ (readers_pure p torn) (direct_is_code p torn) d0 g mv tr F NC i n) as (m & o & r & _ & E).
  { exact (invoked_thr _ _ _ _ _ _ (readers_pure p torn) (direct_is_code p torn) d0 _ _ (RR n) i op I). }
  exists m, r. exact (sent_in _ _ _ _ _ _ d0 _ _ (RR m) i o r E).
Qed.
Print Assumptions C82_answered_under_load.

(** The runs under Go's lock are runs of the server, so C42 applies to them,
    and a tick that is answered has taken effect: it is one of the updates of
    the history that explains the run.  Epoch updates are not starved by
    lookups. *)
Theorem C82_epochs_advance : forall (C : Crypto), CryptoOk C ->
  forall dl0 vk sk size r1 r2 p torn d0 g mv tr,
  Directory_New dl0 vk sk size true r1 r2 = Ok d0 -> fair_server p torn d0 g mv tr ->
  (forall n, (N.of_nat (ticks (tr n)) < 2 ^ 64 - 1)%N) ->
  (forall n, exists s, server_runs p torn d0 (tr n) s) /\
  forall n i, In (EInv i OTick) (tr n) ->
  exists m lin d, n <= m /\ linearizes (srv_sem p) d0 (tr m) lin d /\ exists r, In (i, OTick, r) lin.
Proof.
  intros C OK dl0 vk sk size r1 r2 p torn d0 g mv tr N F T.
  assert (RR : forall k, server_runs p torn d0 (tr k) (g_st _ _ _ (g k)))
    by (intro k; exact (run_reach _ _ _ _ _ _ d0 g mv tr F k)).
  split; [eauto|]. intros n i I.
  assert (MON : forall a b, a <= b -> exists t, tr b = tr a ++ t).
  { intros a b L. induction L as [|b L (t & E)]; [exists []; rewrite app_nil_r; reflexivity|].
    destruct (fr_step _ _ _ _ _ _ _ _ _ _ F b) as (e & _ & E'). exists (t ++ opt_list e). rewrite app_assoc, <- E. exact E'. }
  destruct (C82_answered_under_load C OK dl0 vk sk size r1 r2 p torn d0 g mv tr N F T n i OTick I) as (m0 & r & A).
  set (m := Nat.max n m0). destruct (MON n m) as (t1 & E1); [unfold m; lia|].
  destruct (MON m0 m) as (t2 & E2); [unfold m; lia|].
  assert (A' : In (ERes i r) (tr m)) by (rewrite E2; apply in_or_app; auto).
  assert (I' : In (EInv i OTick) (tr m)) by (rewrite E1; apply in_or_app; auto).
  destruct (C42_linearizable C p torn d0 _ _ (RR m)) as (ND & lin & d & L & _).
  exists m, lin, d. split; [unfold m; lia|]. split; [exact L|]. exists r.
  destruct (lz_answered _ _ _ _ _ L i r A') as (op & K).
  pose proof (lz_invoked _ _ _ _ _ L i op r K) as K'.
  assert (U : forall (tr0 : list (event (option Response) srv_op)) op1 op2, NoDup (inv_tids _ _ tr0) -> In (EInv i op1) tr0 -> In (EInv i op2) tr0 -> op1 = op2).
  { clear. induction tr0 as [|e tr0 IH]; intros op1 op2 ND H1 H2; [destruct H1|].
    assert (IN : forall op, In (EInv (Resp := option Response) i op) tr0 -> In i (inv_tids _ _ tr0)).
    { intros op H. unfold inv_tids. apply in_flat_map. exists (EInv i op). split; [exact H|]. left. reflexivity. }
    destruct e as [j o|j r].
    - cbn [inv_tids flat_map app] in ND. inversion ND as [|? ? NI ND']; subst.
      destruct H1 as [H1|H1], H2 as [H2|H2].
      + congruence.
      + exfalso. injection H1 as -> ->. apply NI. exact (IN op2 H2).
      + exfalso. injection H2 as -> ->. apply NI. exact (IN op1 H1).
      + exact (IH op1 op2 ND' H1 H2).
    - destruct H1 as [H1|H1]; [discriminate H1|]. destruct H2 as [H2|H2]; [discriminate H2|]. exact (IH op1 op2 ND H1 H2). }
  pose proof (U _ _ _ ND K' I') as EQ. rewrite <- EQ. exact K.
Qed.
Print Assumptions C82_epochs_advance.

(** ** A concrete case: the schedule of C42, under Go's lock: the registration
    and the tick write, the lookups read. *)
Definition toy_perm : permtable := permissions (cf_addrs toy_conf).
Definition toy_torn (d : Directory) : list Directory := [mkDirectory (dr_pad d) false [] (dr_pol d)].
Definition toy_live : result (gstate Directory (option Response) srv_op * list (event (option Response) srv_op)) :=
  do d0 <- toy_dir0;
  Ok (gexec _ _ _ (srv_code (C := ToyCrypto) toy_perm toy_torn) (srv_reader toy_perm) (srv_direct toy_perm) d0 toy_schedule).

Definition live_case_ok (L : list (action srv_op)) (x : gstate Directory (option Response) srv_op * list (event (option Response) srv_op)) : bool :=
  let '(g, tr) := x in
  forallb (fun i => answered _ _ _ (st_thr (g_st _ _ _ g) i)) (map (actor srv_op) L)
  && existsb (fun e => match e with EInv 3 OTick => true | _ => false end) tr
  && existsb (fun e => match e with ERes 3 None => true | _ => false end) tr && Nat.eqb (ticks tr) 1
  && match response_code tr 0, response_code tr 1, response_code tr 4 with
     | [a], [b], [c] => Z.eqb a ReqSuccess && Z.eqb b ReqSuccess && Z.eqb c ReqSuccess | _, _, _ => false end.

Lemma live_case : forall (C : Crypto) p torn L d0 g tr,
  gexec _ _ _ (srv_code p torn) (srv_reader p) (srv_direct p) d0 L = (g, tr) -> live_case_ok L (g, tr) = true ->
  exists gg mv trr d, fair_server p torn d0 gg mv trr /\
  (forall n, (N.of_nat (ticks (trr n)) < 2 ^ 64 - 1)%N) /\
  In (EInv 3 OTick) (trr d) /\ In (ERes 3 None) (trr d) /\ response_code (trr d) 0 = [ReqSuccess] /\
  response_code (trr d) 1 = [ReqSuccess] /\ response_code (trr d) 4 = [ReqSuccess].
Proof.
  intros C p torn L d0 g tr X H. unfold live_case_ok in H.
  pose proof (gexec_fair Directory (option Response) srv_op (srv_code p torn) (srv_reader p) (srv_direct p) d0 L) as G.
  rewrite X in G.
  rewrite !andb_true_iff in H. destruct H as ((((H1 & H2) & H3) & H4) & H5).
  destruct G as (gg & mv & trr & F & END); [cbn [fst]; exact H1|].
  exists gg, mv, trr, (length L).
  assert (EN : trr (length L) = tr) by (specialize (END _ (le_n _)); congruence).
  split; [exact F|]. split.
  { apply Nat.eqb_eq in H4. intro n.
    assert (MON : forall a b, a <= b -> exists t, trr b = trr a ++ t).
    { intros a b K. induction K as [|b K (t & Et)]; [exists []; rewrite app_nil_r; reflexivity|].
      destruct (fr_step _ _ _ _ _ _ _ _ _ _ F b) as (e & _ & E'). exists (t ++ opt_list e). rewrite app_assoc, <- Et. exact E'. }
    destruct (MON n (Nat.max n (length L))) as (t & Et); [lia|].
    assert (EM : trr (Nat.max n (length L)) = tr) by (specialize (END (Nat.max n (length L)) (Nat.le_max_r _ _)); congruence).
    rewrite EM in Et. rewrite Et, ticks_app in H4. assert (K : ticks (trr n) <= 1) by lia. revert K. generalize (ticks (trr n)). intros k K.
    apply N.le_lt_trans with 1%N; [lia|reflexivity]. }
  rewrite EN.
  split; [apply existsb_exists in H2 as (e & I & Q); destruct e as [[|[|[|[|?]]]] [| |?]|]; try discriminate Q; exact I|].
  split; [apply existsb_exists in H3 as (e & I & Q); destruct e as [|[|[|[|[|?]]]] [?|]]; try discriminate Q; exact I|].
  destruct (response_code tr 0) as [|a [|? ?]]; try discriminate H5.
  destruct (response_code tr 1) as [|b [|? ?]]; try discriminate H5.
  destruct (response_code tr 4) as [|c [|? ?]]; try discriminate H5.
  rewrite !andb_true_iff, !Z.eqb_eq in H5. destruct H5 as ((-> & ->) & ->). split; [reflexivity|]. split; reflexivity.
Qed.

Lemma toy_live_ok : match toy_live with Ok x => live_case_ok toy_schedule x | Panic => false end = true.
Proof. vm_compute. reflexivity. Qed.

Lemma live_start : forall (C : Crypto) p torn (L : list (action srv_op)) r,
  match (do d0 <- r; Ok (gexec _ _ _ (srv_code p torn) (srv_reader p) (srv_direct p) d0 L)) with
  | Ok x => live_case_ok L x | Panic => false end = true ->
  exists d0 gg mv trr d, r = Ok d0 /\ fair_server p torn d0 gg mv trr /\
  (forall n, (N.of_nat (ticks (trr n)) < 2 ^ 64 - 1)%N) /\
  In (EInv 3 OTick) (trr d) /\ In (ERes 3 None) (trr d) /\ response_code (trr d) 0 = [ReqSuccess] /\
  response_code (trr d) 1 = [ReqSuccess] /\ response_code (trr d) 4 = [ReqSuccess].
Proof.
  intros C p torn L [d0|] H; [|discriminate H]. cbn [bind] in H. exists d0.
  destruct (gexec _ _ _ _ _ _ d0 L) as [g tr] eqn:X.
  destruct (live_case C p torn L d0 g tr X H) as (gg & mv & trr & d & R).
  exists gg, mv, trr, d. split; [reflexivity|exact R].
Qed.

Example C82_case : exists d0 g mv tr d,
  toy_dir0 = Ok d0 /\ @fair_server ToyCrypto toy_perm toy_torn d0 g mv tr /\
  (forall n, (N.of_nat (ticks (tr n)) < 2 ^ 64 - 1)%N) /\
  In (EInv 3 OTick) (tr d) /\ In (ERes 3 None) (tr d) /\ response_code (tr d) 0 = [ReqSuccess] /\
  response_code (tr d) 1 = [ReqSuccess] /\ response_code (tr d) 4 = [ReqSuccess].
Proof. exact (live_start ToyCrypto toy_perm toy_torn toy_schedule toy_dir0 toy_live_ok). Qed.
Print Assumptions C82_case.
