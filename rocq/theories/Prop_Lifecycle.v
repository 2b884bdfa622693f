(** C67 (shutdown is graceful) and C68 (shutdown comes to an end).

    Specification.  [reachable n x]: [x] is a state a server with [n] addresses can
    come to, under any schedule, any clients and any ticks. *)
From Coq Require Import List Lia Bool Arith.
From Verif Require Import Lifecycle.
Import ListNotations.

(** The handler of a connection has ended: its answer is sent and the connection
    closed ([HReset] only has to wake those who wait for it). *)
Definition h_over (p : hpc) : bool := match p with HReset _ | HEnd => true | _ => false end.
(** A listener is closed and has reported so. *)
Definition l_over (p : lpc) : bool := match p with LReset _ | LEnd => true | _ => false end.
Definition b_over (p : bpc) : bool := match p with BReset _ | BEnd => true | _ => false end.
Definition over (t : thr) : bool := match t with TL _ p => l_over p | TH _ p => h_over p | TB p => b_over p end.

(** ** Invariants *)
Definition act1 (t : thr) : bool := match t with TL _ p => negb (l_over p) | TB p => negb (b_over p) | TH _ _ => false end.
Definition act2 (t : thr) : bool := match t with TH _ p => negb (h_over p) | _ => false end.
Definition sleeps2 (t : thr) : bool := match t with TL _ LSleep => true | _ => false end.
Definition resets1 (t : thr) : bool := match t with TL _ (LReset _) | TB (BReset _) => true | _ => false end.
Definition resets2 (t : thr) : bool := match t with TH _ (HReset _) => true | _ => false end.
Definition late (t : thr) : bool := match t with TL _ (LWait | LSleep | LClose | LFinish | LReset _ | LEnd) => true | TB (BFinish | BReset _ | BEnd) => true | _ => false end.
Definition started_pc (t : thr) : bool := match t with TL false LTop | TB BSelect => true | _ => false end.
(** the listener's wait is over *)
Definition waited (t : thr) : bool := match t with TL _ (LClose | LFinish | LReset _ | LEnd) => true | _ => false end.
Definition m_closed (m : mpc) : bool := match m with MStart _ | MRun => false | _ => true end.
Definition m_sleep (m : mpc) : nat := match m with MSleep => 1 | _ => 0 end.

Lemma count_app {A} (f : A -> bool) a b : count f (a ++ b) = count f a + count f b.
Proof. induction a as [|x a IH]; cbn [count app]; [reflexivity|]. rewrite IH. lia. Qed.
Lemma count_0 {A} (f : A -> bool) l : count f l = 0 <-> forall x, In x l -> f x = false.
Proof.
  induction l as [|x l IH]; cbn [count In].
  - split; [intros _ y []|reflexivity].
  - destruct (f x) eqn:E; split; intro H.
    + lia.
    + specialize (H x (or_introl eq_refl)). congruence.
    + intros y [<-|Q]; [exact E|]. apply IH; [lia|exact Q].
    + rewrite (proj2 IH); [reflexivity|]. intros y Q. apply H. now right.
Qed.
Lemma count_pos {A} (f : A -> bool) l : count f l <> 0 -> exists a x b, l = a ++ x :: b /\ f x = true.
Proof.
  induction l as [|x l IH]; cbn [count]; intro H; [lia|]. destruct (f x) eqn:E.
  - exists [], x, l. split; [reflexivity|exact E].
  - destruct (IH H) as (a & y & b & -> & F). exists (x :: a), y, b. split; [reflexivity|exact F].
Qed.

Record inv (s : st) : Prop := mkInv {
  i_c1 : cnt (ws s) = count act1 (ths s);
  i_c2 : cnt (wc s) = count act2 (ths s);
  i_s1 : waiting (ws s) + sema (ws s) = m_sleep (main s);
  i_s2 : waiting (wc s) + sema (wc s) = count sleeps2 (ths s);
  i_r1 : waiting (ws s) <> 0 -> cnt (ws s) = 0 -> count resets1 (ths s) <> 0;
  i_r2 : waiting (wc s) <> 0 -> cnt (wc s) = 0 -> count resets2 (ths s) <> 0;
  i_cl : closed s = m_closed (main s);
  i_late : closed s = false -> count late (ths s) = 0;
  i_todo : forall todo, main s = MStart todo -> forall t, In t todo -> started_pc t = true;
  i_own : forall o p, In (TH o p) (ths s) -> exists f q, nth_error (ths s) o = Some (TL f q);
  i_fin : forall o p f q, In (TH o p) (ths s) -> nth_error (ths s) o = Some (TL f q) -> waited (TL f q) = true -> h_over p = true;
  i_ret : main s = MRet -> count act1 (ths s) = 0
}.

Lemma add_some w w' : wg_add w = Some w' -> cnt w' = S (cnt w) /\ waiting w' = waiting w /\ sema w' = sema w /\ (cnt w = 0 -> waiting w = 0).
Proof.
  unfold wg_add. destruct (Nat.eqb_spec (cnt w) 0), (Nat.eqb_spec (waiting w) 0); cbn [andb negb]; intro H; try discriminate H; injection H as <-; cbn [cnt waiting sema]; lia.
Qed.
Lemma add_none w : wg_add w = None -> cnt w = 0 /\ waiting w <> 0.
Proof. unfold wg_add. destruct (Nat.eqb_spec (cnt w) 0), (Nat.eqb_spec (waiting w) 0); cbn [andb negb]; intro H; try discriminate H; lia. Qed.
Lemma done_some w w' r : wg_done w = Some (w', r) -> cnt w = S (cnt w') /\ waiting w' = waiting w /\ sema w' = sema w /\
  ((r = None /\ (cnt w' <> 0 \/ waiting w' = 0)) \/ (r = Some (waiting w) /\ cnt w' = 0 /\ waiting w <> 0)).
Proof.
  unfold wg_done. destruct (cnt w) as [|c] eqn:E; [discriminate|]. intro H. injection H as <- <-. cbn [cnt waiting sema].
  destruct (Nat.eqb_spec c 0), (Nat.eqb_spec (waiting w) 0); cbn [andb negb]; repeat split; try (left; split; [reflexivity|lia]). right. auto.
Qed.
Lemma done_none w : wg_done w = None -> cnt w = 0.
Proof. unfold wg_done. destruct (cnt w); [reflexivity|discriminate]. Qed.
Lemma reset_some k w w' : wg_reset k w = Some w' -> cnt w = 0 /\ waiting w = k /\ cnt w' = 0 /\ waiting w' = 0 /\ sema w' = sema w + k.
Proof.
  unfold wg_reset. destruct (Nat.eqb_spec (cnt w) 0), (Nat.eqb_spec (waiting w) k); cbn [andb]; intro H; try discriminate H. injection H as <-. cbn [cnt waiting sema]. lia.
Qed.
Lemma reset_none k w : wg_reset k w = None -> cnt w <> 0 \/ waiting w <> k.
Proof. unfold wg_reset. destruct (Nat.eqb_spec (cnt w) 0), (Nat.eqb_spec (waiting w) k); cbn [andb]; intro H; try discriminate H; lia. Qed.
Lemma wait_some w w' : wg_wait w = Some w' -> cnt w <> 0 /\ cnt w' = cnt w /\ waiting w' = S (waiting w) /\ sema w' = sema w.
Proof. unfold wg_wait. destruct (Nat.eqb_spec (cnt w) 0); intro H; try discriminate H. injection H as <-. cbn [cnt waiting sema]. lia. Qed.
Lemma wait_none w : wg_wait w = None -> cnt w = 0.
Proof. unfold wg_wait. destruct (Nat.eqb_spec (cnt w) 0); intro H; [assumption|discriminate H]. Qed.
Lemma woken_some w w' : wg_woken w = Some w' -> cnt w = 0 /\ waiting w = 0 /\ cnt w' = 0 /\ waiting w' = 0 /\ sema w' = pred (sema w).
Proof. unfold wg_woken. destruct (Nat.eqb_spec (cnt w) 0), (Nat.eqb_spec (waiting w) 0); cbn [andb]; intro H; try discriminate H. injection H as <-. cbn [cnt waiting sema]. lia. Qed.
Lemma woken_none w : wg_woken w = None -> cnt w <> 0 \/ waiting w <> 0.
Proof. unfold wg_woken. destruct (Nat.eqb_spec (cnt w) 0), (Nat.eqb_spec (waiting w) 0); cbn [andb]; intro H; try discriminate H; lia. Qed.

Ltac wgs := repeat match goal with
  | H : wg_add _ = Some _ |- _ => apply add_some in H; destruct H as (?&?&?&?)
  | H : wg_add _ = None |- _ => apply add_none in H; destruct H as (?&?)
  | H : wg_done _ = Some (_, _) |- _ => apply done_some in H; destruct H as (?&?&?&[(->&?)|(->&?&?)])
  | H : wg_done _ = None |- _ => apply done_none in H
  | H : wg_reset _ _ = Some _ |- _ => apply reset_some in H; destruct H as (?&?&?&?&?)
  | H : wg_reset _ _ = None |- _ => apply reset_none in H
  | H : wg_wait _ = Some _ |- _ => apply wait_some in H; destruct H as (?&?&?&?)
  | H : wg_wait _ = None |- _ => apply wait_none in H
  | H : wg_woken _ = Some _ |- _ => apply woken_some in H; destruct H as (?&?&?&?&?)
  | H : wg_woken _ = None |- _ => apply woken_none in H
  end.

Definition b2n (b : bool) : nat := if b then 1 else 0.
Definition osum (f : thr -> bool) (o : option thr) : nat := match o with Some t => b2n (f t) | None => 0 end.
(** What a step of a goroutine does to the counts. *)
Lemma local_counts c ts i w1 w2 t lab t' w1' w2' n : local c ts i w1 w2 t lab (Some (t', w1', w2', n)) ->
  cnt w1' + b2n (act1 t) = cnt w1 + b2n (act1 t') + osum act1 n /\
  cnt w2' + b2n (act2 t) = cnt w2 + b2n (act2 t') + osum act2 n /\
  waiting w1' + sema w1' = waiting w1 + sema w1 /\
  waiting w2' + sema w2' + b2n (sleeps2 t) = waiting w2 + sema w2 + b2n (sleeps2 t') + osum sleeps2 n /\
  (waiting w1' <> 0 -> cnt w1' = 0 -> resets1 t' = true \/ (waiting w1 <> 0 /\ cnt w1 = 0 /\ resets1 t = false)) /\
  (waiting w2' <> 0 -> cnt w2' = 0 -> resets2 t' = true \/ (waiting w2 <> 0 /\ cnt w2 = 0 /\ resets2 t = false)) /\
  (c = false -> late t = false -> b2n (late t') + osum late n = 0) /\
  b2n (act1 t') <= b2n (act1 t) /\ osum act1 n = 0.
Proof.
  intro H; inversion H; subst; wgs; cbn; repeat split; try lia; try congruence;
    try (intros; right; repeat split; try lia; reflexivity); try (intros; left; reflexivity); try (intros; lia).
  all: try (destruct p; cbn in *; try lia; intros; congruence).
Qed.
Lemma local_kind c ts i w1 w2 t lab t' w1' w2' n : local c ts i w1 w2 t lab (Some (t', w1', w2', n)) ->
  match t, t' with
  | TL _ _, TL _ _ => (waited t' = true -> waited t = true \/ cnt w2 = 0) /\ (n = None \/ (waited t' = false /\ exists p, n = Some (TH i p)))
  | TH o p, TH o' p' => o' = o /\ n = None /\ (h_over p = true -> h_over p' = true)
  | TB _, TB _ => n = None
  | _, _ => False
  end.
Proof.
  intro H; inversion H; subst; wgs; cbn; repeat split; auto; try congruence; eauto.
Qed.
Lemma nth_mid {A} (a : list A) t b : nth_error (a ++ t :: b) (length a) = Some t.
Proof. rewrite nth_error_app2 by lia. now rewrite Nat.sub_diag. Qed.
Lemma nth_repl {A} (a : list A) t t' b n o x : o <> length a -> nth_error (a ++ t :: b) o = Some x -> nth_error (a ++ t' :: b ++ n) o = Some x.
Proof.
  intros N. destruct (Nat.lt_ge_cases o (length a)) as [L|L].
  - rewrite !nth_error_app1 by exact L. auto.
  - rewrite !nth_error_app2 by exact L. destruct (o - length a) as [|k] eqn:E; [lia|]. cbn [nth_error]. intro H.
    rewrite nth_error_app1; [exact H|]. apply nth_error_Some. congruence.
Qed.
Lemma nth_repl_back {A} (a : list A) t t' b n o x : o <> length a -> o < length (a ++ t :: b) -> nth_error (a ++ t' :: b ++ n) o = Some x -> nth_error (a ++ t :: b) o = Some x.
Proof.
  intros N L H. destruct (nth_error (a ++ t :: b) o) as [y|] eqn:E; [|apply nth_error_None in E; lia].
  rewrite (nth_repl a t t' b n o y N E) in H. congruence.
Qed.
Lemma In_mid {A} (x : A) a t b : In x (a ++ t :: b) <-> x = t \/ In x (a ++ b).
Proof. rewrite !in_app_iff. cbn [In]. intuition congruence. Qed.
Lemma count_osum f n : count f (spawned n) = osum f n.
Proof. destruct n as [t|]; cbn; [destruct (f t); reflexivity|reflexivity]. Qed.
Lemma count_mid (f : thr -> bool) a t b : count f (a ++ t :: b) = count f a + b2n (f t) + count f b.
Proof. rewrite count_app. cbn [count]. unfold b2n. lia. Qed.

Lemma inv_thread c w1 w2 a t b m lab t' w1' w2' n : inv (mkSt c w1 w2 (a ++ t :: b) m) ->
  local c (a ++ t :: b) (length a) w1 w2 t lab (Some (t', w1', w2', n)) -> inv (mkSt c w1' w2' (a ++ t' :: b ++ spawned n) m).
Proof.
  intros I H. pose proof (local_counts _ _ _ _ _ _ _ _ _ _ _ H) as (K1 & K2 & K3 & K4 & K5 & K6 & K7 & K8 & K9).
  pose proof (local_kind _ _ _ _ _ _ _ _ _ _ _ H) as KK.
  destruct I as [C1 C2 S1 S2 R1 R2 CL LT TD OW FN RT]. cbn [ws wc ths main closed] in *.
  rewrite !count_mid in *.
  constructor; cbn [ws wc ths main closed]; rewrite ?count_mid, ?count_app, ?count_osum; try lia.
  - intros W Z. destruct (K5 W Z) as [R|(W0 & Z0 & R)]; [rewrite R; cbn; lia|]. specialize (R1 W0 Z0). rewrite R in R1. cbn in R1. lia.
  - intros W Z. destruct (K6 W Z) as [R|(W0 & Z0 & R)]; [rewrite R; cbn; lia|]. specialize (R2 W0 Z0). rewrite R in R2. cbn in R2. lia.
  - exact CL.
  - intro E. specialize (LT E). specialize (K7 E). destruct (late t); cbn in LT; [lia|]. specialize (K7 eq_refl). lia.
  - exact TD.
  - intros o p Q. apply In_mid in Q. rewrite app_assoc in Q.
    assert (O : exists f q, nth_error (a ++ t :: b) o = Some (TL f q)).
    { destruct Q as [Q|Q].
      - destruct t as [f q|o1 q|q], t' as [f' q'|o1' q'|q']; try contradiction; try discriminate Q. destruct KK as (-> & _). injection Q as -> _. apply (OW o1 q), In_mid. now left.
      - rewrite in_app_iff in Q. destruct Q as [Q|Q]; [apply (OW o p), In_mid; now right|].
        destruct n as [tn|]; cbn [spawned In] in Q; [|destruct Q]. destruct Q as [->|[]].
        destruct t as [f q|o1 q|q], t' as [f' q'|o1' q'|q']; try contradiction.
        + destruct KK as (_ & [KK|(_ & p1 & KK)]); [discriminate KK|]. injection KK as -> ->. exists f, q. apply nth_mid.
        + destruct KK as (_ & KK & _). discriminate KK.
        + discriminate KK. }
    destruct O as (f & q & O). destruct (Nat.eq_dec o (length a)) as [->|N].
    + rewrite nth_mid in O. injection O as ->. destruct t' as [f' q'|o1' q'|q']; try contradiction. exists f', q'. apply nth_mid.
    + exists f, q. apply (nth_repl a t); [exact N|exact O].
  - intros o p f q Q O Wt. destruct (Nat.eq_dec o (length a)) as [->|N].
    + rewrite nth_mid in O. injection O as ->. destruct t as [f0 q0|o1 q0|q0]; try contradiction. destruct KK as (K & Sp). specialize (K Wt).
      destruct Sp as [->|(F & _)]; [|congruence]. cbn [spawned] in Q. rewrite app_nil_r in Q. apply In_mid in Q. destruct Q as [Q|Q]; [discriminate Q|].
      destruct K as [K|K].
      * apply (FN (length a) p f0 q0); [apply In_mid; now right|apply nth_mid|exact K].
      * assert (Z : act2 (TH (length a) p) = false). { apply (proj1 (count_0 act2 (a ++ b))); [rewrite count_app; lia|exact Q]. }
        cbn in Z. destruct (h_over p); [reflexivity|discriminate Z].
    + apply In_mid in Q. rewrite app_assoc in Q.
      assert (Q' : (In (TH o p) (a ++ b) \/ exists p0, t = TH o p0 /\ (h_over p0 = true -> h_over p = true))).
      { destruct Q as [Q|Q].
        - subst t'. destruct t as [f0 q0|o1 q0|q0]; try contradiction. destruct KK as (-> & _ & KK). right. exists q0. split; [reflexivity|exact KK].
        - rewrite in_app_iff in Q. destruct Q as [Q|Q]; [now left|]. exfalso.
          destruct n as [tn|]; cbn [spawned In] in Q; [|destruct Q]. destruct Q as [->|[]].
          destruct t as [f0 q0|o1 q0|q0], t' as [f' q'|o1' q'|q']; try contradiction.
          + destruct KK as (_ & [KK|(_ & p1 & KK)]); [discriminate KK|]. injection KK as -> _. apply N. reflexivity.
          + destruct KK as (_ & KK & _). discriminate KK.
          + discriminate KK. }
      destruct Q' as [Q'|(p0 & -> & KO)].
      * assert (Q2 : In (TH o p) (a ++ t :: b)) by (apply In_mid; now right). destruct (OW _ _ Q2) as (f1 & q1 & O1).
        pose proof (nth_repl a t t' b (spawned n) o _ N O1) as O2. rewrite O2 in O. injection O as -> ->. exact (FN o p f q Q2 O1 Wt).
      * assert (Q2 : In (TH o p0) (a ++ TH o p0 :: b)) by (apply In_mid; now left). destruct (OW _ _ Q2) as (f1 & q1 & O1).
        pose proof (nth_repl a _ t' b (spawned n) o _ N O1) as O2. rewrite O2 in O. injection O as -> ->. exact (KO (FN o p0 f q Q2 O1 Wt)).
  - intro E. specialize (RT E). lia.
Qed.
Lemma inv_step x lab y : step x lab y -> forall s s', x = Up s -> y = Up s' -> inv s -> inv s'.
Proof.
  intros H s s' Ex Ey I. destruct H; try discriminate Ey; injection Ex as <-; injection Ey as <-.
  - eapply inv_thread; [exact I|exact H].
  - destruct I as [C1 C2 S1 S2 R1 R2 CL LT TD OW FN RT]. cbn [ws wc ths main closed m_closed m_sleep] in *. wgs.
    pose proof (TD _ eq_refl t (or_introl eq_refl)) as ST.
    assert (Ct : act1 t = true /\ act2 t = false /\ sleeps2 t = false /\ resets1 t = false /\ resets2 t = false /\ late t = false /\ (forall o p, t <> TH o p)).
    { destruct t as [[] []|o p|[]]; try discriminate ST; repeat split; discriminate. }
    destruct Ct as (A1 & A2 & A3 & A4 & A5 & A6 & A7).
    constructor; cbn [ws wc ths main closed m_sleep m_closed]; rewrite ?count_app; cbn [count]; rewrite ?A1, ?A2, ?A3, ?A4, ?A5, ?A6; try lia.
    + exact CL.
    + intro E. rewrite (LT E). reflexivity.
    + intros todo' E. injection E as <-. intros u Q. apply (TD _ eq_refl). now right.
    + intros o p Q. rewrite in_app_iff in Q. destruct Q as [Q|[Q|[]]]; [|exfalso; exact (A7 o p Q)]. destruct (OW o p Q) as (f & q & O). exists f, q. rewrite nth_error_app1; [exact O|]. apply nth_error_Some. congruence.
    + intros o p f q Q O W. rewrite in_app_iff in Q. destruct Q as [Q|[Q|[]]]; [|exfalso; exact (A7 o p Q)]. destruct (OW o p Q) as (f1 & q1 & O1).
      rewrite nth_error_app1 in O by (apply nth_error_Some; congruence). exact (FN o p f q Q O W).
    + discriminate.
  - destruct I as [C1 C2 S1 S2 R1 R2 CL LT TD OW FN RT]. constructor; cbn [ws wc ths main closed m_sleep m_closed] in *; try assumption; try discriminate.
  - destruct I as [C1 C2 S1 S2 R1 R2 CL LT TD OW FN RT]. constructor; cbn [ws wc ths main closed m_sleep m_closed] in *; try assumption; try discriminate; try reflexivity.
  - destruct I as [C1 C2 S1 S2 R1 R2 CL LT TD OW FN RT]. wgs. constructor; cbn [ws wc ths main closed m_sleep m_closed] in *; try assumption; try discriminate. intros _. lia.
  - destruct I as [C1 C2 S1 S2 R1 R2 CL LT TD OW FN RT]. wgs. constructor; cbn [ws wc ths main closed m_sleep m_closed] in *; try assumption; try discriminate; try lia.
  - destruct I as [C1 C2 S1 S2 R1 R2 CL LT TD OW FN RT]. wgs. constructor; cbn [ws wc ths main closed m_sleep m_closed] in *; try assumption; try discriminate; try lia.
Qed.
Lemma inv_before n : forall s, before_run n = Up s -> inv s.
Proof.
  intros s E. unfold before_run in E. injection E as <-. constructor; cbn [ws wc ths main closed m_sleep m_closed cnt waiting sema count]; try reflexivity; try lia; try discriminate.
  - intros todo Q. injection Q as <-. intros t H. unfold server_goroutines in H. destruct H as [<-|H]; [reflexivity|]. rewrite in_app_iff in H. destruct H as [H|[<-|[]]]; [|reflexivity].
    apply repeat_spec in H. now subst t.
  - intros o p [].
  - intros o p f q [].
Qed.
Lemma steps_snoc x y lab z : steps x y -> step y lab z -> steps x z.
Proof. intro H. revert z. induction H as [x|x l y w Q R IH]; intros z K; [eapply steps_step; [exact K|constructor]|]. eapply steps_step; [exact Q|]. now apply IH. Qed.
Lemma steps_trans x y z : steps x y -> steps y z -> steps x z.
Proof. intro H. induction H as [x|x l y w Q R IH]; intro K; [exact K|]. eapply steps_step; [exact Q|]. now apply IH. Qed.
Lemma crashed_final x lab : ~ step Crashed lab x.
Proof. intro H. inversion H. Qed.
Lemma inv_steps x y : steps x y -> (forall s, x = Up s -> inv s) -> forall s, y = Up s -> inv s.
Proof.
  induction 1 as [x|x l y z Q R IH]; intros I s E; [exact (I s E)|]. apply IH; [|exact E]. intros s1 ->. destruct x as [s0|]; [|destruct (crashed_final _ _ Q)].
  exact (inv_step _ _ _ Q s0 s1 eq_refl eq_refl (I s0 eq_refl)).
Qed.
Lemma inv_reachable n s : reachable n (Up s) -> inv s.
Proof. intro H. exact (inv_steps _ _ H (inv_before n) s eq_refl). Qed.

(** ** No misuse of the wait groups *)
Definition isTL (t : thr) : bool := match t with TL _ _ => true | _ => false end.
Definition todo_of (m : mpc) : list thr := match m with MStart l => l | _ => [] end.
Definition saved1 (t : thr) : option nat := match t with TL _ (LReset k) | TB (BReset k) => Some k | _ => None end.
Definition saved2 (t : thr) : option nat := match t with TH _ (HReset k) => Some k | _ => None end.
Record calm (w : wg) (resets : thr -> bool) (saved : thr -> option nat) (ts : list thr) : Prop := mkCalm {
  k_a : count resets ts <> 0 -> cnt w = 0 /\ waiting w <> 0;
  k_s : forall t k, In t ts -> saved t = Some k -> waiting w = k;
  k_b : count resets ts <= 1;
  k_c : sema w <> 0 -> cnt w = 0 /\ waiting w = 0
}.
Lemma saved1_resets t k : saved1 t = Some k -> resets1 t = true.
Proof. destruct t as [f []|o p|[]]; cbn; congruence. Qed.
Lemma saved2_resets t k : saved2 t = Some k -> resets2 t = true.
Proof. destruct t as [f p|o []|p]; cbn; congruence. Qed.
Lemma in_count f (t : thr) l : In t l -> f t = true -> count f l <> 0.
Proof. intros H E Z. rewrite count_0 in Z. rewrite (Z t H) in E. discriminate E. Qed.
(** the part of [calm] that a step changes, given the number [R] of other goroutines that are resetting *)
Definition calmR (w : wg) (resets : thr -> bool) (saved : thr -> option nat) (R : nat) (t : thr) : Prop :=
  (R + b2n (resets t) <> 0 -> cnt w = 0 /\ waiting w <> 0) /\ (forall k, saved t = Some k -> waiting w = k) /\
  R + b2n (resets t) <= 1 /\ (sema w <> 0 -> cnt w = 0 /\ waiting w = 0).
Lemma calm_mid w resets saved a t b : (forall t k, saved t = Some k -> resets t = true) ->
  calm w resets saved (a ++ t :: b) <-> calmR w resets saved (count resets (a ++ b)) t /\ (forall u k, In u (a ++ b) -> saved u = Some k -> waiting w = k).
Proof.
  intro SR. rewrite count_app. split.
  - intros [A S B C]. rewrite count_mid in A, B. repeat split; try lia; try (apply A; lia); try (apply C; assumption).
    + intros k. apply S, In_mid. now left.
    + intros u k Q. apply S, In_mid. now right.
  - intros ((A & S & B & C) & S'). constructor; rewrite ?count_mid; try lia; try assumption.
    + intros u k Q. apply In_mid in Q. destruct Q as [->|Q]; [apply S|now apply S'].
Qed.
Lemma local_calm1 c ts i w1 w2 t lab t' w1' w2' n R : local c ts i w1 w2 t lab (Some (t', w1', w2', n)) ->
  calmR w1 resets1 saved1 R t -> calmR w1' resets1 saved1 R t' /\ (R <> 0 -> waiting w1' = waiting w1) /\ (forall u k, n = Some u -> saved1 u = Some k -> False) /\ osum resets1 n = 0.
Proof.
  intros H (A & S & B & C). unfold calmR. inversion H; subst; wgs; cbn in *; repeat split; try lia; try congruence; try (intros; lia); try (intros u k Q; injection Q as <-; discriminate).
  all: try (intros k Q; apply S; exact Q).
Qed.
Lemma local_calm2 c ts i w1 w2 t lab t' w1' w2' n R : local c ts i w1 w2 t lab (Some (t', w1', w2', n)) ->
  (isTL t = true -> waiting w2 + sema w2 = b2n (sleeps2 t)) ->
  calmR w2 resets2 saved2 R t -> calmR w2' resets2 saved2 R t' /\ (R <> 0 -> waiting w2' = waiting w2) /\ (forall u k, n = Some u -> saved2 u = Some k -> False) /\ osum resets2 n = 0.
Proof.
  intros H T (A & S & B & C). unfold calmR. inversion H; subst; wgs; cbn in *; try specialize (T eq_refl); repeat split; try lia; try congruence; try (intros; lia); try (intros u k Q; injection Q as <-; discriminate).
Qed.
Lemma local_panic c ts i w1 w2 t lab R1 : local c ts i w1 w2 t lab None ->
  calmR w1 resets1 saved1 R1 t -> b2n (act1 t) <= cnt w1 -> b2n (act2 t) <= cnt w2 ->
  (exists f sc, t = TL f (LGot sc) /\ cnt w2 = 0 /\ waiting w2 <> 0) \/ (exists f, t = TL f LSleep /\ sema w2 <> 0 /\ (cnt w2 <> 0 \/ waiting w2 <> 0)) \/
  (exists o k, t = TH o (HReset k) /\ (cnt w2 <> 0 \/ waiting w2 <> k)).
Proof.
  intros H (A & S & B & C) L1 L2. inversion H; subst; wgs; cbn in *; try lia.
  - left. eauto.
  - right. left. eauto.
  - exfalso. specialize (S k eq_refl). lia.
  - right. right. eauto.
  - exfalso. specialize (S k eq_refl). lia.
Qed.
Lemma calm_thread w w' resets saved a t b t' n : (forall t k, saved t = Some k -> resets t = true) ->
  calm w resets saved (a ++ t :: b) ->
  (calmR w resets saved (count resets (a ++ b)) t -> calmR w' resets saved (count resets (a ++ b)) t' /\ (count resets (a ++ b) <> 0 -> waiting w' = waiting w) /\
     (forall u k, n = Some u -> saved u = Some k -> False) /\ osum resets n = 0) ->
  calm w' resets saved (a ++ t' :: b ++ spawned n).
Proof.
  intros SR K L. apply (calm_mid w resets saved a t b SR) in K. destruct K as [K S]. destruct (L K) as (K' & W & N & O).
  apply calm_mid; [exact SR|]. assert (E : count resets (a ++ b ++ spawned n) = count resets (a ++ b)) by (rewrite !count_app, count_osum, O; lia).
  rewrite E. split; [exact K'|]. intros u k Q Sv. rewrite app_assoc, in_app_iff in Q. destruct Q as [Q|Q].
  - rewrite W; [exact (S u k Q Sv)|]. exact (in_count resets u _ Q (SR _ _ Sv)).
  - destruct n as [tn|]; [|destruct Q]. destruct Q as [->|[]]. destruct (N u k eq_refl Sv).
Qed.
Lemma calm_start w w' resets saved ts t : (forall t k, saved t = Some k -> resets t = true) -> calm w resets saved ts -> resets t = false ->
  waiting w = 0 -> cnt w' = S (cnt w) -> waiting w' = 0 -> sema w' = sema w -> sema w = 0 -> calm w' resets saved (ts ++ [t]).
Proof.
  intros SR [A S B C] Rt W1 E1 E2 E3 E4. assert (Z : count resets ts = 0) by lia.
  constructor; rewrite ?count_app; cbn [count]; rewrite ?Rt, ?Z; try lia.
  intros u k Q Sv. exfalso. rewrite in_app_iff in Q. destruct Q as [Q|[->|[]]].
  - specialize (SR _ _ Sv). pose proof (proj1 (count_0 resets ts) Z u Q). congruence.
  - specialize (SR _ _ Sv). congruence.
Qed.
Lemma calm_none w w' resets saved ts : (forall t k, saved t = Some k -> resets t = true) -> calm w resets saved ts -> count resets ts = 0 ->
  (sema w' <> 0 -> cnt w' = 0 /\ waiting w' = 0) -> calm w' resets saved ts.
Proof.
  intros SR [A S B C] Z K. constructor; rewrite ?Z; try lia.
  intros u k Q Sv. exfalso. specialize (SR _ _ Sv). pose proof (proj1 (count_0 resets ts) Z u Q). congruence.
Qed.
Lemma started_facts t : started_pc t = true -> resets1 t = false /\ resets2 t = false.
Proof. destruct t as [[] []|o p|[]]; intro H; try discriminate H; split; reflexivity. Qed.
Lemma calm1_step x lab y : step x lab y -> forall s s', x = Up s -> y = Up s' -> inv s -> calm (ws s) resets1 saved1 (ths s) -> calm (ws s') resets1 saved1 (ths s').
Proof.
  intros H s s' Ex Ey I K. destruct H; try discriminate Ey; injection Ex as <-; injection Ey as <-; cbn [ws ths] in *; try exact K.
  - apply (calm_thread w1 w1' _ _ a t b t' n saved1_resets K). apply (local_calm1 _ _ _ _ _ _ _ _ _ _ _ _ H).
  - pose proof (i_s1 _ I) as S1. cbn [ws main m_sleep] in S1. wgs. apply (calm_start w1); try assumption; try lia; [exact saved1_resets|].
    apply started_facts, (i_todo _ I _ eq_refl). now left.
  - pose proof (i_s1 _ I) as S1. cbn [ws main m_sleep] in S1. wgs. apply (calm_none w1); [exact saved1_resets|exact K|destruct K; lia|lia].
  - pose proof (i_s1 _ I) as S1. cbn [ws main m_sleep] in S1. wgs. apply (calm_none w1); [exact saved1_resets|exact K|destruct K; lia|lia].
Qed.
Lemma one_listener_waits a t b c w1 w2 m : inv (mkSt c w1 w2 (a ++ t :: b) m) -> count isTL (a ++ t :: b) <= 1 -> isTL t = true -> waiting w2 + sema w2 = b2n (sleeps2 t).
Proof.
  intros I L T. pose proof (i_s2 _ I) as S2. cbn [wc ths] in S2. rewrite S2, count_mid. rewrite count_mid, T in L. cbn in L.
  assert (Z : forall l, count isTL l = 0 -> count sleeps2 l = 0). { intros l Q. apply count_0. intros u Hu. pose proof (proj1 (count_0 _ _) Q u Hu) as F. destruct u; [discriminate F|reflexivity|reflexivity]. }
  rewrite (Z a), (Z b) by lia. lia.
Qed.
Lemma isTL_step x lab y : step x lab y -> forall s s', x = Up s -> y = Up s' -> count isTL (ths s') + count isTL (todo_of (main s')) = count isTL (ths s) + count isTL (todo_of (main s)).
Proof.
  intros H s s' Ex Ey. destruct H; try discriminate Ey; injection Ex as <-; injection Ey as <-; cbn [main ths todo_of count] in *; try lia.
  - rewrite !count_mid, count_app, count_osum. pose proof (local_kind _ _ _ _ _ _ _ _ _ _ _ H) as K. destruct t, t'; try contradiction; cbn.
    + destruct K as (_ & [->|(_ & p' & ->)]); cbn; lia.
    + destruct K as (_ & -> & _). cbn. lia.
    + rewrite K. cbn. lia.
  - rewrite count_app. cbn [count]. lia.
Qed.
Lemma calm2_step x lab y : step x lab y -> forall s s', x = Up s -> y = Up s' -> inv s -> count isTL (ths s) + count isTL (todo_of (main s)) <= 1 ->
  calm (wc s) resets2 saved2 (ths s) -> calm (wc s') resets2 saved2 (ths s').
Proof.
  intros H s s' Ex Ey I L K. destruct H; try discriminate Ey; injection Ex as <-; injection Ey as <-; cbn [wc ths main todo_of] in *; try exact K.
  - apply (calm_thread w2 w2' _ _ a t b t' n saved2_resets K). apply (local_calm2 _ _ _ _ _ _ _ _ _ _ _ _ H). apply (one_listener_waits _ _ _ _ _ _ _ I). lia.
  - pose proof (i_todo _ I _ eq_refl t (or_introl eq_refl)) as ST. apply started_facts in ST. destruct K as [A S B C]. constructor; rewrite ?count_app; cbn [count]; rewrite ?(proj2 ST); try lia; try assumption.
    + intros u k Q Sv. rewrite in_app_iff in Q. destruct Q as [Q|[->|[]]]; [exact (S u k Q Sv)|]. apply saved2_resets in Sv. rewrite (proj2 ST) in Sv. discriminate Sv.
Qed.
Lemma count_repeat f (t : thr) n : count f (repeat t n) = n * b2n (f t).
Proof. induction n as [|n IH]; cbn [repeat count]; [reflexivity|]. rewrite IH. unfold b2n. lia. Qed.
Definition good (s : st) : Prop := inv s /\ calm (ws s) resets1 saved1 (ths s) /\ (count isTL (ths s) + count isTL (todo_of (main s)) <= 1 -> calm (wc s) resets2 saved2 (ths s)).
Lemma good_step x lab y : step x lab y -> forall s s', x = Up s -> y = Up s' -> good s -> good s'.
Proof.
  intros H s s' Ex Ey (I & K1 & K2). split; [exact (inv_step _ _ _ H s s' Ex Ey I)|]. split; [exact (calm1_step _ _ _ H s s' Ex Ey I K1)|].
  rewrite (isTL_step _ _ _ H s s' Ex Ey). intro L. exact (calm2_step _ _ _ H s s' Ex Ey I L (K2 L)).
Qed.
Lemma steps_listeners x y : steps x y -> forall s s', x = Up s -> y = Up s' -> count isTL (ths s') + count isTL (todo_of (main s')) = count isTL (ths s) + count isTL (todo_of (main s)).
Proof.
  induction 1 as [x|x l y z Q R IH]; intros s s' Ex Ey; [congruence|]. subst x. destruct y as [s1|].
  - rewrite (IH s1 s' eq_refl Ey). exact (isTL_step _ _ _ Q s s1 eq_refl eq_refl).
  - inversion R; subst; [discriminate|]. destruct (crashed_final _ _ H).
Qed.
Lemma good_steps x y : steps x y -> (forall s, x = Up s -> good s) -> forall s, y = Up s -> good s.
Proof.
  induction 1 as [x|x l y z Q R IH]; intros I s E; [exact (I s E)|]. apply IH; [|exact E]. intros s1 ->. destruct x as [s0|]; [|destruct (crashed_final _ _ Q)].
  exact (good_step _ _ _ Q s0 s1 eq_refl eq_refl (I s0 eq_refl)).
Qed.
Lemma good_reachable n s : reachable n (Up s) -> good s /\ count isTL (ths s) + count isTL (todo_of (main s)) = n.
Proof.
  intro H. split.
  - apply (good_steps _ _ H); [|reflexivity]. intros s0 E. split; [exact (inv_before n s0 E)|]. unfold before_run in E. injection E as <-. cbn [ws wc ths].
    split; [|intros _]; constructor; cbn; try lia; intros t k [].
  - rewrite (steps_listeners _ _ H _ s eq_refl eq_refl). cbn [ths main todo_of]. unfold server_goroutines. cbn [count isTL]. rewrite count_app, count_repeat. cbn. lia.
Qed.

(** ** Measure and progress *)
Definition wh (p : hpc) : nat :=
  match p with
  | HRead n r a => 7 + n + a + match r with Some (_, m) => m | None => 0 end
  | HWant _ m a => 6 + m + a | HHold _ m a => 5 + m + a | HAns n => 4 + n | HClose => 3 | HFinish => 2 | HReset _ => 1 | HEnd => 0
  end.
Definition wt (t : thr) : nat :=
  match t with
  | TL f p => b2n (negb f) + match p with
      | LTop => 6 | LAccept => 7 | LGot sc => 7 + wh (HRead (s_read sc) (s_req sc) (s_ans sc)) | LWait => 5 | LSleep => 4 | LClose => 3 | LFinish => 2 | LReset _ => 1 | LEnd => 0 end
  | TH _ p => wh p
  | TB p => match p with BSelect => 3 | BWant n => 5 + n | BHold n => 4 + n | BFinish => 2 | BReset _ => 1 | BEnd => 0 end
  end.
Definition wm (m : mpc) : nat := match m with MWait => 2 | MSleep => 1 | _ => 0 end.
Definition accepting (t : thr) : bool := match t with TL _ LAccept => true | _ => false end.
Definition weight (s : st) : nat := list_sum (map wt (ths s)) + wm (main s).
Lemma local_weight ts i w1 w2 t lab t' w1' w2' n : local true ts i w1 w2 t lab (Some (t', w1', w2', n)) -> lab <> Tick ->
  (accepting t = true /\ accepting t' = false /\ n = None) \/ (b2n (accepting t') + osum accepting n = b2n (accepting t) /\ wt t' + match n with Some u => wt u | None => 0 end < wt t).
Proof.
  intros H N. inversion H; subst; wgs; cbn -[Nat.add]; try congruence; try (left; repeat split; reflexivity); right; try (split; [reflexivity|]); cbn; try lia.
Qed.
Lemma weight_step x lab y : step x lab y -> forall s s', x = Up s -> y = Up s' -> inv s -> closed s = true -> lab = Sys \/ lab = Net ->
  closed s' = true /\ (count accepting (ths s') < count accepting (ths s) \/ (count accepting (ths s') = count accepting (ths s) /\ weight s' < weight s)).
Proof.
  intros H s s' Ex Ey I C L. unfold weight. destruct H; try discriminate Ey; injection Ex as <-; injection Ey as <-; cbn [closed ths main wm] in *; try subst c.
  - split; [reflexivity|]. rewrite !count_mid, count_app, count_osum, !map_app, !list_sum_app. cbn [map list_sum fold_right]. rewrite map_app, list_sum_app.
    destruct (local_weight _ _ _ _ _ _ _ _ _ _ H) as [(A & A' & ->)|(A & W)]; [destruct L; congruence| |].
    + left. rewrite A, A'. cbn. lia.
    + right. split; [lia|]. fold (list_sum (map wt b)). change (fold_right Nat.add 0) with list_sum. destruct n as [u|]; cbn [spawned map list_sum fold_right] in *; lia.
  - pose proof (i_cl _ I) as Q. cbn in Q. discriminate Q.
  - pose proof (i_cl _ I) as Q. cbn in Q. discriminate Q.
  - discriminate C.
  - split; [reflexivity|]. right. split; [reflexivity|lia].
  - split; [reflexivity|]. right. split; [reflexivity|lia].
  - split; [reflexivity|]. right. split; [reflexivity|lia].
Qed.
Lemma thread_step c w1 w2 ts m t o : In t ts -> (forall i, local c ts i w1 w2 t Sys (o i)) -> exists y, step (Up (mkSt c w1 w2 ts m)) Sys y.
Proof.
  intros H L. apply in_split in H. destruct H as (a & b & ->). specialize (L (length a)). destruct (o (length a)) as [[[[t' w1'] w2'] n]|].
  - eexists. eapply s_thread, L.
  - eexists. eapply s_panic, L.
Qed.
Ltac tstep := eapply thread_step; [eassumption|intro; econstructor; first [eassumption|reflexivity]].
Ltac tgo := eapply thread_step; [eassumption|intro; econstructor].
Lemma holder_moves c w1 w2 ts m t : In t ts -> holds t = true -> exists y, step (Up (mkSt c w1 w2 ts m)) Sys y.
Proof.
  intros H T. destruct t as [f p|o []|[]]; try discriminate T.
  - destruct n; tgo.
  - destruct n; tgo.
Qed.
Lemma count_le (f g : thr -> bool) l : (forall t, f t = true -> g t = true) -> count f l <= count g l.
Proof. intro H. induction l as [|t l IH]; cbn [count]; [lia|]. specialize (H t). destruct (f t); [rewrite (H eq_refl)|destruct (g t)]; lia. Qed.
Lemma lock_or_moves c w1 w2 ts m wr : can_lock wr ts = true \/ exists y, step (Up (mkSt c w1 w2 ts m)) Sys y.
Proof.
  destruct (Nat.eq_dec (count holds ts) 0) as [E|E].
  - left. unfold can_lock. destruct wr; apply Nat.eqb_eq; [exact E|]. pose proof (count_le holds_write holds ts ltac:(intros [f p|o []|[]]; cbn; congruence)). lia.
  - right. apply count_pos in E. destruct E as (a & t & b & -> & T). apply (holder_moves _ _ _ _ _ t); [apply In_mid; now left|exact T].
Qed.
Lemma handler_moves c w1 w2 ts m o p : In (TH o p) ts -> p <> HEnd -> exists y, step (Up (mkSt c w1 w2 ts m)) Sys y.
Proof.
  intros H N. destruct p.
  - destruct n; [destruct req as [[]|]|]; tgo.
  - destruct (lock_or_moves c w1 w2 ts m wr) as [L|L]; [|exact L]. tstep.
  - destruct n; tgo.
  - destruct n; tgo.
  - tgo.
  - destruct (wg_done w2) as [[]|] eqn:E; tstep.
  - destruct (wg_reset saved w2) eqn:E; tstep.
  - congruence.
Qed.
Lemma reset1_moves c w1 w2 ts m : count resets1 ts <> 0 -> exists y, step (Up (mkSt c w1 w2 ts m)) Sys y.
Proof.
  intro H. apply count_pos in H. destruct H as (a & t & b & -> & T). assert (Q : In t (a ++ t :: b)) by (apply In_mid; now left).
  destruct t as [f []|o p|[]]; try discriminate T; destruct (wg_reset saved w1) eqn:E; tstep.
Qed.
Lemma progress s : inv s -> closed s = true -> main s <> MRet -> exists y, step (Up s) Sys y.
Proof.
  intros I C N. destruct s as [c w1 w2 ts m]. pose proof (i_cl _ I) as CL. pose proof (i_s1 _ I) as S1. pose proof (i_r1 _ I) as R1. pose proof (i_c1 _ I) as C1.
  cbn [closed main ws ths] in *. subst c. destruct m; cbn in CL; try discriminate CL; [| |congruence].
  - destruct (wg_wait w1) eqn:E; eexists; [eapply s_wait, E|eapply s_wait_ret, E].
  - cbn in S1. destruct (Nat.eq_dec (sema w1) 0) as [Z|Z].
    2:{ destruct (wg_woken w1) eqn:E; eexists; [eapply s_woken; eassumption|eapply s_woken_panic; eassumption]. }
    destruct (Nat.eq_dec (cnt w1) 0) as [Y|Y]; [apply reset1_moves, R1; lia|].
    rewrite C1 in Y. apply count_pos in Y. destruct Y as (a & t & b & E & T). assert (Q : In t ts) by (rewrite E; apply In_mid; now left).
    destruct t as [f p|o p|p]; [|discriminate T|].
    + destruct p; try discriminate T.
      * tstep.
      * destruct f; [tgo|tstep].
      * destruct (wg_add w2) eqn:W; tstep.
      * destruct (wg_wait w2) eqn:W; tstep.
      * destruct (Nat.eq_dec (sema w2) 0) as [Z2|Z2]; [|destruct (wg_woken w2) eqn:W; tstep].
        pose proof (i_s2 _ I) as S2. pose proof (i_r2 _ I) as R2. pose proof (i_c2 _ I) as C2. cbn [wc ths] in *.
        assert (SL : count sleeps2 ts <> 0) by (apply (in_count sleeps2 (TL f LSleep)); [exact Q|reflexivity]).
        assert (HH : exists o p, In (TH o p) ts /\ p <> HEnd).
        { destruct (Nat.eq_dec (cnt w2) 0) as [Y2|Y2].
          - assert (RR : count resets2 ts <> 0) by (apply R2; lia). apply count_pos in RR. destruct RR as (a' & u & b' & -> & U).
            destruct u as [|o p|]; try discriminate U. exists o, p. split; [apply In_mid; now left|]. intros ->. discriminate U.
          - rewrite C2 in Y2. apply count_pos in Y2. destruct Y2 as (a' & u & b' & -> & U).
            destruct u as [|o p|]; try discriminate U. exists o, p. split; [apply In_mid; now left|]. intros ->. discriminate U. }
        destruct HH as (o & p & Hp & Np). exact (handler_moves _ _ _ _ _ o p Hp Np).
      * tgo.
      * destruct (wg_done w1) as [[]|] eqn:W; tstep.
    + destruct p; try discriminate T.
      * tstep.
      * destruct (lock_or_moves true w1 w2 ts MSleep true) as [L|L]; [|exact L]. tstep.
      * destruct n; tgo.
      * destruct (wg_done w1) as [[]|] eqn:W; tstep.
Qed.

(** ** C67 *)
(** When Shutdown returns, the handlers of all connections ever accepted have
    answered and closed them, all listeners are closed and both loops have ended. *)
Theorem C67_returns_when_done : forall n s, reachable n (Up s) -> main s = MRet -> forall t, In t (ths s) -> over t = true.
Proof.
  intros n s R M t H. pose proof (inv_reachable n s R) as I. pose proof (i_ret _ I M) as Z. rewrite count_0 in Z.
  destruct t as [f p|o p|p].
  - specialize (Z _ H). cbn in *. destruct (l_over p); [reflexivity|discriminate Z].
  - destruct (i_own _ I o p H) as (f & q & O). cbn. apply (i_fin _ I o p f q H O). pose proof (Z _ (nth_error_In _ _ O)) as F. cbn in F. destruct q; try discriminate F; reflexivity.
  - specialize (Z _ H). cbn in *. destruct (b_over p); [reflexivity|discriminate Z].
Qed.
Definition isTH (t : thr) : bool := match t with TH _ _ => true | _ => false end.
(** From then on nothing happens any more: no connection is accepted, no request
    handled, no epoch ended. *)
Theorem C67_nothing_after : forall n s s', reachable n (Up s) -> main s = MRet -> steps (Up s) (Up s') ->
  main s' = MRet /\ length (ths s') = length (ths s) /\ forall t, In t (ths s') -> over t = true.
Proof.
  intros n s s' R M H. assert (G : main s' = MRet /\ length (ths s') = length (ths s)).
  { remember (Up s) as x eqn:Ex. remember (Up s') as y eqn:Ey. revert s s' R M Ex Ey. induction H as [x|x l y z Q K IH]; intros s s' R M Ex Ey.
    - subst x. injection Ey as <-. split; [exact M|reflexivity].
    - subst x. destruct y as [s1|]; [|inversion K; subst; [discriminate|destruct (crashed_final _ _ H)]].
      assert (S1 : main s1 = MRet /\ length (ths s1) = length (ths s)).
      { pose proof (C67_returns_when_done n s R M) as O. inversion Q; subst; cbn [main ths] in *; try discriminate M.
        - split; [exact M|]. specialize (O t ltac:(apply In_mid; now left)). rewrite !app_length. cbn [length]. rewrite app_length.
          assert (n0 = None) as -> by (match goal with K : local _ _ _ _ _ _ _ _ |- _ => inversion K; subst; try reflexivity; discriminate O end). cbn. lia. }
      destruct S1 as [M1 L1]. destruct (IH s1 s' (steps_snoc _ _ _ _ R Q) M1 eq_refl Ey) as [M2 L2]. split; [exact M2|congruence]. }
  destruct G as [G1 G2]. split; [exact G1|]. split; [exact G2|]. apply (C67_returns_when_done n); [exact (steps_trans _ _ _ R H)|exact G1].
Qed.
(** The lock is exclusive throughout, also while shutting down: a goroutine that
    holds it for writing (a registration, an epoch update, a reload) is the only
    one that holds it. *)
Definition exclusive (ts : list thr) : Prop := count holds_write ts = 0 \/ count holds ts = 1.
Lemma holds_write_holds t : holds_write t = true -> holds t = true.
Proof. destruct t as [? ?|? []|[]]; cbn; congruence. Qed.
Lemma exclusive_step x lab y : step x lab y -> forall s s', x = Up s -> y = Up s' -> inv s -> exclusive (ths s) -> exclusive (ths s').
Proof.
  intros H s s' Ex Ey IV I. destruct H; try discriminate Ey; injection Ex as <-; injection Ey as <-; cbn [ths] in *; auto.
  - assert (LE : forall l : list thr, count holds_write l <= count holds l) by (intros l; apply count_le, holds_write_holds).
    unfold exclusive in *. pose proof (LE a). pose proof (LE b). rewrite !count_mid in *. rewrite !count_app, !count_osum.
    inversion H; subst; cbn [osum holds holds_write b2n] in *; try lia;
      repeat match goal with
      | Q : can_lock _ _ = true |- _ => unfold can_lock in Q
      | b : bool |- _ => destruct b
      | r : option nat |- _ => destruct r
      end; cbn [osum holds holds_write b2n] in *;
      repeat match goal with Q : Nat.eqb _ _ = true |- _ => apply Nat.eqb_eq in Q; rewrite count_mid in Q; cbn [holds holds_write b2n] in Q end; lia.
  - pose proof (i_todo _ IV _ eq_refl t (or_introl eq_refl)) as ST.
    assert (Q : holds t = false /\ holds_write t = false) by (destruct t as [[] []|o p|[]]; try discriminate ST; auto).
    destruct Q as (Q1 & Q2). unfold exclusive in *. rewrite !count_app. cbn [count]. rewrite Q1, Q2. lia.
Qed.
Lemma exclusive_steps x y : steps x y -> (forall s, x = Up s -> inv s /\ exclusive (ths s)) -> forall s, y = Up s -> exclusive (ths s).
Proof.
  induction 1 as [x|x lab y z Q K IH]; intros H s E; [exact (proj2 (H s E))|]. apply IH; [|exact E]. intros s1 E1. subst y.
  destruct x as [s0|]; [|destruct (crashed_final _ _ Q)]. destruct (H s0 eq_refl) as (I0 & X0).
  split; [exact (inv_step _ _ _ Q s0 s1 eq_refl eq_refl I0)|exact (exclusive_step _ _ _ Q s0 s1 eq_refl eq_refl I0 X0)].
Qed.
Lemma count_two (f : thr -> bool) l i j t t' : i < j -> nth_error l i = Some t -> nth_error l j = Some t' -> f t = true -> f t' = true -> 2 <= count f l.
Proof.
  intros L Hi Hj Ft Ft'. apply nth_error_split in Hi as (l1 & l2 & -> & <-). rewrite nth_error_app2 in Hj by lia.
  destruct (j - length l1) as [|k] eqn:E; [lia|]. cbn [nth_error] in Hj. apply nth_error_split in Hj as (l3 & l4 & -> & _).
  rewrite !count_mid, Ft, Ft'. cbn [b2n]. lia.
Qed.
Theorem C67_exclusive : forall n s i j t t', reachable n (Up s) -> nth_error (ths s) i = Some t -> nth_error (ths s) j = Some t' ->
  holds_write t = true -> holds t' = true -> i = j.
Proof.
  intros n s i j t t' R Hi Hj W Hd.
  assert (X : exclusive (ths s)).
  { eapply exclusive_steps; [exact R| |reflexivity]. intros s0 E. split; [exact (inv_before n s0 E)|]. injection E as <-. left. reflexivity. }
  destruct X as [X|X].
  - rewrite count_0 in X. rewrite (X t (nth_error_In _ _ Hi)) in W. discriminate W.
  - pose proof (holds_write_holds _ W) as Wh. destruct (Nat.lt_trichotomy i j) as [L|[L|L]]; [|exact L|].
    + pose proof (count_two holds (ths s) i j t t' L Hi Hj Wh Hd). lia.
    + pose proof (count_two holds (ths s) j i t' t L Hj Hi Hd Wh). lia.
Qed.
(** Once Shutdown has been called, each address accepts at most one more connection. *)
Theorem C67_few_more : forall n s s', reachable n (Up s) -> closed s = true -> steps (Up s) (Up s') ->
  count isTH (ths s') <= count isTH (ths s) + n.
Proof.
  set (g := fun t => match t with TL _ (LAccept | LGot _) => true | _ => false end).
  intros n s s' R C H. assert (G : count isTH (ths s') + count g (ths s') <= count isTH (ths s) + count g (ths s)).
  { remember (Up s) as x eqn:Ex. remember (Up s') as y eqn:Ey. revert s s' R C Ex Ey. induction H as [x|x l y z Q K IH]; intros s s' R C Ex Ey.
    - subst x. injection Ey as <-. lia.
    - subst x. destruct y as [s1|]; [|inversion K; subst; [discriminate|destruct (crashed_final _ _ H)]].
      pose proof (inv_reachable n s R) as I.
      assert (S1 : closed s1 = true /\ count isTH (ths s1) + count g (ths s1) <= count isTH (ths s) + count g (ths s)).
      { pose proof (i_cl _ I) as CL. inversion Q; subst; cbn [closed ths main m_closed] in *; try (split; [reflexivity || exact C|lia]); try congruence.
        split; [exact C|]. rewrite !count_mid, !count_app, !count_osum. subst c. match goal with K : local _ _ _ _ _ _ _ _ |- _ => inversion K; subst; cbn; try lia; try congruence end. all: try (destruct p; cbn; lia). all: destruct r; cbn; lia. }
      destruct S1 as [C1 L1]. specialize (IH s1 s' (steps_snoc _ _ _ _ R Q) C1 eq_refl Ey). lia. }
  destruct (good_reachable n s R) as [_ L]. pose proof (count_le g isTL (ths s) ltac:(intros [f []|o p|p]; cbn; congruence)). lia.
Qed.
(** A server with at most one address never crashes here, unless Shutdown is called twice. *)
Theorem C67_one_address_no_crash : forall n s lab, n <= 1 -> reachable n (Up s) -> step (Up s) lab Crashed -> main s = MRet /\ lab = Call.
Proof.
  intros n s lab L R H. destruct (good_reachable n s R) as [(I & K1 & K2) E]. rewrite E in K2. specialize (K2 L).
  inversion H; subst; cbn [main ths ws wc todo_of] in *.
  - exfalso. pose proof K1 as K1'. apply (calm_mid w1 _ _ a t b saved1_resets) in K1'. destruct K1' as [K1' _]. apply (calm_mid w2 _ _ a t b saved2_resets) in K2. destruct K2 as [(A2 & S2 & B2 & D2) _].
    pose proof (i_c1 _ I) as C1. pose proof (i_c2 _ I) as C2. cbn [ws wc ths] in *. rewrite count_mid in C1, C2.
    match goal with K : local _ _ _ _ _ _ _ _ |- _ => destruct (local_panic _ _ _ _ _ _ _ _ K K1' ltac:(lia) ltac:(lia)) as [(f & sc & -> & Z1 & Z2)|[(f & -> & Z1 & Z2)|(o & k & -> & Z)]] end.
    + pose proof (one_listener_waits _ _ _ _ _ _ _ I ltac:(lia) eq_refl) as W. cbn in W. lia.
    + destruct (D2 Z1). lia.
    + specialize (S2 k eq_refl). destruct A2 as [A2 A3]; cbn; lia.
  - exfalso. wgs. pose proof (i_s1 _ I) as S1. cbn in S1. lia.
  - exfalso. wgs. destruct (k_c _ _ _ _ K1) as [Z1 Z2]; [assumption|]. lia.
  - split; reflexivity.
Qed.
Theorem C67_second_call_crashes : forall n s, reachable n (Up s) -> main s = MRet -> step (Up s) Call Crashed.
Proof.
  intros n s R M. pose proof (i_cl _ (inv_reachable n s R)) as C. destruct s as [c w1 w2 ts m]. cbn [main closed] in *. subst m. cbn in C. subst c. constructor.
Qed.
Ltac sys := eapply steps_step; [first [eapply s_start; reflexivity|eapply s_started|eapply s_shutdown|eapply s_wait; reflexivity|eapply s_woken; [discriminate|reflexivity]|eapply s_wait_ret; reflexivity]|cbn [app]].
Ltac go k rule := match goal with |- steps (Up (mkSt ?c ?w1 ?w2 ?ts ?m)) _ =>
  let a := eval cbn in (firstn k ts) in let t := eval cbn in (nth k ts (TB BEnd)) in let b := eval cbn in (skipn (S k) ts) in
  eapply steps_step; [eapply (s_thread c w1 w2 a t b m); cbn [length]; rule|cbn [app spawned]] end.
Definition one_read : script := mkScript 1 (Some (false, 1)) 1.
(** With two addresses (the configuration that init writes has two), Shutdown can
    crash the process: the first listener waits for a connection to end while the
    second one accepts another. *)
Theorem C67_two_addresses_no_crash_refuted : ~ (forall n s lab, reachable n (Up s) -> step (Up s) lab Crashed -> main s = MRet).
Proof.
  intro A. set (e := mkSt true (mkWg 4 1 0) (mkWg 0 1 0) [TB BSelect; TL false LSleep; TL false (LGot one_read); TB BSelect; TH 1 (HReset 1)] MSleep).
  assert (R : reachable 2 (Up e)).
  { unfold reachable, before_run, server_goroutines. cbn [repeat app]. do 4 sys. sys.
    go 1 ltac:(apply l_top_go; reflexivity). go 2 ltac:(apply l_top_go; reflexivity).
    go 1 ltac:(apply (l_conn _ _ _ _ _ _ one_read)). go 1 ltac:(eapply l_add; reflexivity). cbn [s_read s_req s_ans one_read].
    sys. sys. go 1 ltac:(apply l_top_stop; reflexivity). go 1 ltac:(eapply l_wait; reflexivity). go 2 ltac:(apply (l_conn _ _ _ _ _ _ one_read)).
    do 3 (go 4 ltac:(econstructor; reflexivity)). do 5 (go 4 ltac:(econstructor)). go 4 ltac:(eapply h_done; reflexivity). apply steps_refl. }
  assert (S : step (Up e) Sys Crashed). { apply (s_panic true _ _ [TB BSelect; TL false LSleep] (TL false (LGot one_read)) _ MSleep Sys). apply l_add_panic. reflexivity. }
  specialize (A 2 e Sys R S). discriminate A.
Qed.

(** ** C68 *)
(** The process cannot avoid [P] as long as its goroutines keep running, whatever
    the clients do and in whatever order the goroutines run. *)
Inductive inevitable (P : proc -> Prop) : proc -> Prop :=
| in_now x : P x -> inevitable P x
| in_later x : (exists y, step x Sys y) -> (forall lab y, lab = Sys \/ lab = Net -> step x lab y -> inevitable P y) -> inevitable P x.
Definition returned (x : proc) : Prop := match x with Up s => main s = MRet | Crashed => False end.
Lemma wf_inevitable : forall k j s, inv s -> closed s = true -> count accepting (ths s) = k -> weight s = j -> inevitable (fun x => returned x \/ x = Crashed) (Up s).
Proof.
  intro k. induction k as [k IHk] using lt_wf_ind. intro j. induction j as [j IHj] using lt_wf_ind. intros s I C K J.
  assert (D : main s = MRet \/ main s <> MRet) by (destruct (main s); (left; reflexivity) || (right; discriminate)).
  destruct D as [D|D]; [apply in_now; left; exact D|]. apply in_later; [exact (progress s I C D)|].
  intros lab y L H. destruct y as [s'|]; [|apply in_now; now right].
  destruct (weight_step _ _ _ H s s' eq_refl eq_refl I C L) as [C' W]. pose proof (inv_step _ _ _ H s s' eq_refl eq_refl I) as I'.
  destruct W as [W|[W1 W2]]; [apply (IHk (count accepting (ths s')) ltac:(lia) (weight s')); auto|apply (IHj (weight s') ltac:(lia)); auto; lia].
Qed.
(** Once Shutdown is called, it returns or the process crashes, unless the clock
    or reload signals keep the background loops busy forever. *)
Theorem C68_shutdown_ends : forall n s, reachable n (Up s) -> closed s = true -> inevitable (fun x => returned x \/ x = Crashed) (Up s).
Proof. intros n s R C. eapply wf_inevitable; [exact (inv_reachable n s R)|exact C|reflexivity|reflexivity]. Qed.
(** With at most one address it returns. *)
Theorem C68_one_address_returns : forall n s, n <= 1 -> reachable n (Up s) -> closed s = true -> inevitable returned (Up s).
Proof.
  intros n s L R C. pose proof (C68_shutdown_ends n s R C) as H.
  enough (G : forall x, inevitable (fun x => returned x \/ x = Crashed) x -> reachable n x -> (forall s, x = Up s -> closed s = true) -> x <> Crashed -> inevitable returned x).
  { apply (G _ H R); [intros s' E; injection E as <-; exact C|discriminate]. }
  clear s R C H. intros x H. induction H as [x P|x Q K IH]; intros R C N.
  - destruct P as [P|P]; [now apply in_now|contradiction].
  - destruct x as [s|]; [|congruence]. apply in_later; [exact Q|]. intros lab y La St. apply (IH lab y La St).
    + exact (steps_snoc _ _ _ _ R St).
    + intros s' ->. apply (weight_step _ _ _ St s s' eq_refl eq_refl (inv_reachable n s R) (C s eq_refl) La).
    + intros ->. destruct (C67_one_address_no_crash n s lab L R St) as [_ ->]. destruct La; discriminate.
Qed.
(** The condition on the clock is needed: select may choose the timer again and
    again (whose interval is zero, see C44), so Shutdown may be kept waiting forever. *)
Definition busy (i : nat) : bpc := match i mod 3 with 0 => BSelect | 1 => BWant 0 | _ => BHold 0 end.
Definition busy_st (i : nat) : st := mkSt true (mkWg 3 0 0) (mkWg 0 0 0) [TB (busy i); TL false LTop; TB BSelect] MWait.
Theorem C68_unconditional_refuted : exists f : nat -> st, reachable 1 (Up (f 0)) /\ closed (f 0) = true /\
  forall i, (exists lab, step (Up (f i)) lab (Up (f (S i)))) /\ main (f i) <> MRet.
Proof.
  exists busy_st. split; [|split; [reflexivity|]].
  - unfold reachable, before_run, server_goroutines. cbn [repeat app]. do 3 sys. sys. sys. apply steps_refl.
  - intro i. split; [|discriminate].
    assert (B : (busy i = BSelect /\ busy (S i) = BWant 0) \/ (busy i = BWant 0 /\ busy (S i) = BHold 0) \/ (busy i = BHold 0 /\ busy (S i) = BSelect)).
    { unfold busy. pose proof (Nat.mod_upper_bound i 3 ltac:(lia)) as U. pose proof (Nat.div_mod i 3 ltac:(lia)) as D.
      destruct (i mod 3) as [|[|[|r]]] eqn:E; [| | |lia].
      - left. replace (S i mod 3) with 1; [auto|]. apply Nat.mod_unique with (i / 3); lia.
      - right. left. replace (S i mod 3) with 2; [auto|]. apply Nat.mod_unique with (i / 3); lia.
      - right. right. replace (S i mod 3) with 0; [auto|]. apply Nat.mod_unique with (S (i / 3)); lia. }
    unfold busy_st. destruct B as [[-> ->]|[[-> ->]|[-> ->]]]; eexists;
      apply (s_thread true _ _ [] (TB _) [TL false LTop; TB BSelect] MWait _ (TB _) _ _ None); [apply b_tick|apply b_lock; reflexivity|apply b_unlock].
Qed.

(** ** Instances *)
(** A server with one address that serves one client, is told to stop and stops. *)
Example C67_example : exists s, reachable 1 (Up s) /\ main s = MRet /\ In (TH 1 HEnd) (ths s).
Proof.
  eexists. split; [|split].
  - unfold reachable, before_run, server_goroutines. cbn [repeat app]. do 3 sys. sys.
    go 1 ltac:(apply l_top_go; reflexivity). go 1 ltac:(apply (l_conn _ _ _ _ _ _ one_read)). go 1 ltac:(eapply l_add; reflexivity). cbn [s_read s_req s_ans one_read].
    sys. go 1 ltac:(apply l_top_stop; reflexivity). go 1 ltac:(eapply l_wait; reflexivity).
    do 3 (go 3 ltac:(econstructor; reflexivity)). do 5 (go 3 ltac:(econstructor)). go 3 ltac:(eapply h_done; reflexivity). cbn. go 3 ltac:(eapply h_reset; reflexivity).
    go 1 ltac:(eapply l_woken; [discriminate|reflexivity]). go 1 ltac:(apply l_close). go 1 ltac:(eapply l_done; reflexivity). cbn.
    go 0 ltac:(apply b_stop; reflexivity). go 2 ltac:(apply b_stop; reflexivity). go 0 ltac:(eapply b_done; reflexivity). cbn. sys.
    go 2 ltac:(eapply b_done; reflexivity). cbn. go 2 ltac:(eapply b_reset; reflexivity). cbn. sys. apply steps_refl.
  - reflexivity.
  - cbn. auto 10.
Qed.
(** C68: stop is closed while a connection is being handled. *)
Example C68_example : exists s, reachable 1 (Up s) /\ closed s = true /\ In (TH 1 (HRead 1 (Some (false, 1)) 1)) (ths s).
Proof.
  eexists. split; [|split].
  - unfold reachable, before_run, server_goroutines. cbn [repeat app]. do 3 sys. sys.
    go 1 ltac:(apply l_top_go; reflexivity). go 1 ltac:(apply (l_conn _ _ _ _ _ _ one_read)). go 1 ltac:(eapply l_add; reflexivity). cbn [s_read s_req s_ans one_read].
    sys. apply steps_refl.
  - reflexivity.
  - cbn. auto 10.
Qed.

(** C67: the epoch loop holds the lock while a reader wants it. *)
Example C67_exclusive_example : exists s, reachable 1 (Up s) /\ closed s = true /\
  nth_error (ths s) 0 = Some (TB (BHold 1)) /\ nth_error (ths s) 3 = Some (TH 1 (HWant false 1 1)).
Proof.
  eexists. split; [|split; [|split]].
  - unfold reachable, before_run, server_goroutines. cbn [repeat app]. do 3 sys. sys.
    go 1 ltac:(apply l_top_go; reflexivity). go 1 ltac:(apply (l_conn _ _ _ _ _ _ one_read)). go 1 ltac:(eapply l_add; reflexivity). cbn [s_read s_req s_ans one_read].
    go 0 ltac:(apply (b_tick _ _ _ _ _ 1)). go 0 ltac:(apply b_lock; reflexivity). go 3 ltac:(apply h_read). go 3 ltac:(apply h_req).
    sys. apply steps_refl.
  - reflexivity.
  - reflexivity.
  - reflexivity.
Qed.

Print Assumptions C67_returns_when_done.
Print Assumptions C67_nothing_after.
Print Assumptions C67_few_more.
Print Assumptions C67_one_address_no_crash.
Print Assumptions C67_second_call_crashes.
Print Assumptions C67_two_addresses_no_crash_refuted.
Print Assumptions C68_shutdown_ends.
Print Assumptions C68_one_address_returns.
Print Assumptions C68_unconditional_refuted.
Print Assumptions C67_exclusive.
