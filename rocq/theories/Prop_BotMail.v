(** C80: the proxy's mailbox. *)
From Coq Require Import List NArith ZArith Lia Bool Arith Permutation.
From Verif Require Import Base Utils Crypto Tree STR PAD Protocol Json JsonText Wire Text Bot BotMail Prop_Bot.
Import ListNotations.
Local Open Scope nat_scope.

Lemma mem_In i l : mem i l = true <-> In i l.
Proof.
  unfold mem. rewrite existsb_exists. split; [intros (x & I & E); apply N.eqb_eq in E; subst; exact I|].
  intro I. exists i. split; [exact I|apply N.eqb_refl].
Qed.

(** ** Start *)

Definition arrivals (turns : list turn) : list N := flat_map tn_arrive turns.

(** Whatever Twitter does: only messages of the mailbox are destroyed, and a
    message is gone exactly if it was destroyed. *)
Theorem C80_destroys_only_own_mail : forall turns box left destroyed returned,
  deleteOldDMs turns box = (left, destroyed, returned) ->
  (forall i, In i destroyed -> In i (arrivals turns ++ box)) /\
  (forall i, In i left -> In i (arrivals turns ++ box)) /\
  (forall i, In i box -> In i left \/ In i destroyed).
Proof.
  induction turns as [|t turns IH]; intros box left destroyed returned H; cbn [deleteOldDMs] in H.
  - injection H as <- <- <-. cbn. split; [intros i []|]. split; auto.
  - set (box1 := tn_arrive t ++ box) in *. assert (E : forall i, In i (arrivals turns ++ box1) -> In i (arrivals (t :: turns) ++ box)).
    { intros i. unfold box1, arrivals. cbn [flat_map]. rewrite !in_app_iff. tauto. }
    set (dms := if tn_get t then firstn Count box1 else []) in *.
    assert (D : forall i, In i dms -> In i box1).
    { intros i. unfold dms. destruct (tn_get t); [|intros []]. intro I. rewrite <- (firstn_skipn Count box1). apply in_or_app. auto. }
    destruct dms as [|d0 dms'] eqn:DM.
    + injection H as <- <- <-. split; [intros i []|]. split; [intros i I; apply E, in_or_app; auto|].
      intros i I. left. apply in_or_app. auto.
    + rewrite <- DM in *. clear DM d0 dms'. set (gone := filter (tn_destroy t) dms) in *.
      destruct (deleteOldDMs turns (filter (fun i => negb (mem i gone)) box1)) as [[l2 d2] r2] eqn:R.
      injection H as <- <- <-. destruct (IH _ _ _ _ R) as (A & B & K).
      assert (F : forall i, In i (arrivals turns ++ filter (fun i => negb (mem i gone)) box1) -> In i (arrivals turns ++ box1)).
      { intro i. rewrite !in_app_iff. intros [X|X]; [auto|]. apply filter_In in X as (X & _). auto. }
      split; [|split].
      * intros i I. apply E. apply in_app_or in I as [I|I]; [|auto]. apply in_or_app. right. apply D. unfold gone in I. apply filter_In in I. tauto.
      * intros i I. auto.
      * intros i I. assert (I1 : In i box1) by (apply in_or_app; auto).
        destruct (mem i gone) eqn:M; [right; apply in_or_app; left; apply mem_In; exact M|].
        destruct (K i) as [X|X]; [apply filter_In; rewrite M; auto|auto|right; apply in_or_app; auto].
Qed.
Print Assumptions C80_destroys_only_own_mail.

(** Twitter co-operates: no error, no new message. *)
Definition quiet (t : turn) : Prop := tn_arrive t = [] /\ tn_get t = true /\ forall i, tn_destroy t i = true.

(** Then all old messages are destroyed, 200 a turn, and the call returns. *)
Lemma filter_all {A} (f : A -> bool) l : (forall x, f x = true) -> filter f l = l.
Proof. intro H. induction l as [|a l IH]; cbn [filter]; [reflexivity|]. rewrite H, IH. reflexivity. Qed.
Lemma filter_front (a b : list N) : NoDup (a ++ b) -> filter (fun i => negb (mem i a)) (a ++ b) = b.
Proof.
  intro ND. rewrite filter_app.
  assert (A : forall l, (forall i, In i l -> In i a) -> filter (fun i => negb (mem i a)) l = []).
  { induction l as [|x l IH]; intro H; [reflexivity|]. cbn [filter].
    rewrite (proj2 (mem_In x a) (H x (or_introl eq_refl))). cbn [negb]. apply IH. intros i I. apply H. right. exact I. }
  rewrite A by auto. cbn [app].
  assert (B : forall l, (forall i, In i l -> ~ In i a) -> filter (fun i => negb (mem i a)) l = l).
  { induction l as [|x l IH]; intro H; [reflexivity|]. cbn [filter].
    destruct (mem x a) eqn:M; [apply mem_In in M; destruct (H x (or_introl eq_refl) M)|]. cbn [negb]. f_equal. apply IH. intros i I. apply H. right. exact I. }
  apply B. intros i I J. clear - ND I J. induction a as [|x a IH]; [destruct J|]. cbn [app] in ND. inversion ND; subst.
  destruct J as [->|J]; [apply H1, in_or_app; auto|auto].
Qed.
Lemma filter_rest l n : NoDup l -> filter (fun i => negb (mem i (firstn n l))) l = skipn n l.
Proof.
  intro ND. rewrite <- (firstn_skipn n l) in ND. pose proof (filter_front _ _ ND) as F. rewrite firstn_skipn in F. exact F.
Qed.
Theorem C80_clean_start : forall turns box k, NoDup box -> Forall quiet turns ->
  length box <= 200 * k -> k < length turns ->
  deleteOldDMs turns box = ([], box, true).
Proof.
  induction turns as [|t turns IH]; intros box k ND Q L K; [cbn [length] in K; lia|].
  inversion Q as [|x y (A & G & D) Q']; subst. cbn [deleteOldDMs]. rewrite A, G. cbn [app].
  destruct box as [|b box]; [reflexivity|]. set (bx := b :: box) in *.
  assert (NE : exists h t, firstn Count bx = h :: t) by (exists b, (firstn 199 box); reflexivity).
  destruct NE as (h0 & t0 & NE). rewrite NE. rewrite <- NE. rewrite (filter_all _ (firstn Count bx) D).
  rewrite (filter_rest bx Count ND). destruct k as [|k]; [subst bx; cbn [length] in L; lia|].
  rewrite (IH (skipn Count bx) k).
  - cbn [fst snd]. rewrite firstn_skipn. reflexivity.
  - rewrite <- (firstn_skipn Count bx) in ND. clear - ND. revert ND. generalize (firstn Count bx) (skipn Count bx). intros a c.
    induction a as [|x a IHa]; cbn [app]; [auto|]. intro N. inversion N; subst. auto.
  - exact Q'.
  - rewrite skipn_length. unfold Count. lia.
  - cbn [length] in K. lia.
Qed.
Print Assumptions C80_clean_start.

(** The call returns only when it was told that there is no message left: the
    mailbox is empty then, or [Get] failed. *)
Theorem C80_returns : forall turns box left destroyed,
  deleteOldDMs turns box = (left, destroyed, true) -> left = [] \/ exists t, In t turns /\ tn_get t = false.
Proof.
  induction turns as [|t turns IH]; intros box left destroyed H; cbn [deleteOldDMs] in H; [discriminate H|].
  destruct (tn_get t) eqn:G; [|intros; right; exists t; split; [left; reflexivity|exact G]].
  destruct (tn_arrive t ++ box) as [|b bx] eqn:E.
  - cbn [firstn Count] in H. injection H as <- <-. left. reflexivity.
  - destruct (firstn Count (b :: bx)) as [|h tl] eqn:F; [discriminate F|]. rewrite <- F in H.
    destruct (deleteOldDMs turns _) as [[l2 d2] r2] eqn:R. injection H as <- <- ->.
    destruct (IH _ _ _ R) as [X|(t' & I & X)]; [left; exact X|right; exists t'; split; [right; exact I|exact X]].
Qed.
Print Assumptions C80_returns.

(** One failing [Get] and the proxy starts with its old mail, reporting that
    it deleted all of it. *)
Theorem C80_all_deleted_refuted : forall box d, deleteOldDMs [mkTurn [] false d] box = (box, [], true).
Proof. reflexivity. Qed.
Print Assumptions C80_all_deleted_refuted.
(** One message (among the newest 200 of at most 200) that cannot be
    destroyed, and the proxy never starts. *)
Theorem C80_starts_refuted : forall turns box i, In i box -> length box <= 200 ->
  Forall (fun t => tn_arrive t = [] /\ tn_get t = true /\ tn_destroy t i = false) turns ->
  exists left destroyed, deleteOldDMs turns box = (left, destroyed, false) /\ In i left.
Proof.
  induction turns as [|t turns IH]; intros box i I L F; cbn [deleteOldDMs]; [eauto|].
  inversion F as [|x y (A & G & D) F']; subst. rewrite A, G. cbn [app].
  rewrite firstn_all2 by (unfold Count; lia). destruct box as [|b box]; [destruct I|]. set (bx := b :: box) in *.
  destruct (IH (filter (fun j => negb (mem j (filter (tn_destroy t) bx))) bx) i) as (l & d & E & X).
  - apply filter_In. split; [exact I|]. apply negb_true_iff. apply not_true_is_false. intro M. apply mem_In, filter_In in M as (_ & M). congruence.
  - assert (H : forall f (l : list N), length (filter f l) <= length l) by (intros f l; induction l as [|a l IHl]; cbn [filter]; [auto|destruct (f a); cbn [length]; lia]).
    pose proof (H (fun j => negb (mem j (filter (tn_destroy t) bx))) bx). lia.
  - exact F'.
  - subst bx. rewrite E. eauto.
Qed.
Print Assumptions C80_starts_refuted.

(** ** Running *)

(** The proxy orders the destruction of a message exactly if it is not its
    own, once, and of one reply if it answered; nothing else.  [asked]: the
    text has the prefix. *)
Definition asked (text : bytes) : Prop := exists t, text = messagePrefix ++ t.
Definition reply_id (x : incoming) : N := match in_reply x with Some i => i | None => 0%N end.
Lemma strip_iff text : (exists m, strip_prefix messagePrefix text = Some m) <-> asked text.
Proof.
  unfold asked. generalize messagePrefix as pre. intro pre. revert text.
  induction pre as [|a pre IH]; intro text; cbn [strip_prefix app].
  - split; eauto.
  - destruct text as [|c text]; [split; [intros (m & X); discriminate X|intros (t & X); discriminate X]|].
    destruct (byte_eqb a c) eqn:E.
    + apply byte_eqb_eq in E. subst c. rewrite IH. split; intros (t & X); exists t; congruence.
    + split; [intros (m & X); discriminate X|]. intros (t & X). injection X as <- _.
      rewrite (proj2 (byte_eqb_eq c c) eq_refl) in E. discriminate E.
Qed.
Theorem C80_orders : forall handle now l x done tasks, In (x, done, tasks) (session handle now l) ->
  In x l /\ (now <= done)%N /\ (in_time x <= done)%N /\
  (folds (dm_from (in_dm x)) handle -> tasks = []) /\
  (~ folds (dm_from (in_dm x)) handle -> ~ asked (dm_text (in_dm x)) -> tasks = [((done + 300)%N, dm_id (in_dm x))]) /\
  (~ folds (dm_from (in_dm x)) handle -> asked (dm_text (in_dm x)) ->
     tasks = [((done + 300)%N, dm_id (in_dm x)); ((done + 300)%N, reply_id x)] /\ (in_time x + in_service x + 5 <= done)%N).
Proof.
  intros handle now l. revert now. induction l as [|y l IH]; intros now x done tasks I; cbn [session] in I; [destruct I|].
  destruct (handled handle now y) as [dn ts] eqn:H.
  assert (MN : (now <= dn)%N).
  { unfold handled in H. destruct (EqualFold _ _); [injection H as <- _; lia|].
    destruct (strip_prefix _ _); injection H as <- _; lia. }
  destruct I as [I|I].
  2:{ destruct (IH _ _ _ _ I) as (A & B & R). split; [right; exact A|]. split; [lia|exact R]. }
  injection I as -> -> ->. split; [left; reflexivity|]. split; [exact MN|].
  unfold handled in H. destruct (EqualFold (dm_from (in_dm x)) handle) eqn:E.
  - apply EqualFold_spec in E. injection H as <- <-. split; [lia|]. split; [auto|]. split; intros N; contradiction.
  - assert (NF : ~ folds (dm_from (in_dm x)) handle) by (intro F; apply EqualFold_spec in F; congruence).
    destruct (strip_prefix messagePrefix (dm_text (in_dm x))) as [m|] eqn:S; injection H as <- <-.
    + assert (AS : asked (dm_text (in_dm x))) by (apply strip_iff; eauto).
      split; [lia|]. split; [contradiction|]. split; [contradiction|]. intros _ _. split; [reflexivity|lia].
    + assert (NA : ~ asked (dm_text (in_dm x))) by (intro A; apply strip_iff in A as (m & A); congruence).
      split; [lia|]. split; [contradiction|]. split; [reflexivity|contradiction].
Qed.
Print Assumptions C80_orders.
Theorem C80_every_message_once : forall handle now l, map (fun s => fst (fst s)) (session handle now l) = l.
Proof.
  intros handle now l. revert now. induction l as [|y l IH]; intro now; cbn [session]; [reflexivity|].
  destruct (handled handle now y) as [dn ts]. cbn [map fst]. rewrite IH. reflexivity.
Qed.
Print Assumptions C80_every_message_once.

(** Requests are answered one after the other, with a pause of five seconds
    each: the n-th request of a stream is not answered before 5n seconds have
    passed, however fast the server is. *)
Fixpoint asked_count (handle : bytes) (l : list incoming) : N :=
  match l with
  | [] => 0
  | x :: l' => ((if EqualFold (dm_from (in_dm x)) handle then 0
                 else match strip_prefix messagePrefix (dm_text (in_dm x)) with Some _ => 1 | None => 0 end) + asked_count handle l')%N
  end.
Theorem C80_throughput : forall handle now a x b,
  exists done tasks, nth_error (session handle now (a ++ x :: b)) (length a) = Some (x, done, tasks) /\
    (now + 5 * asked_count handle (a ++ [x]) <= done)%N.
Proof.
  intros handle now a. revert now. induction a as [|y a IH]; intros now x b; cbn [app session asked_count length].
  - destruct (handled handle now x) as [dn ts] eqn:H. exists dn, ts. split; [reflexivity|].
    unfold handled in H. destruct (EqualFold _ _); [injection H as <- _; lia|]. destruct (strip_prefix _ _); injection H as <- _; lia.
  - destruct (handled handle now y) as [dn ts] eqn:H. cbn [nth_error].
    destruct (IH dn x b) as (done & tasks & E & L). exists done, tasks. split; [exact E|].
    unfold handled in H. destruct (EqualFold _ _); [injection H as <- _; lia|]. destruct (strip_prefix _ _); injection H as <- _; lia.
Qed.
Print Assumptions C80_throughput.

(** ** Stopping and starting again *)

(** A proxy that handles one request and is stopped within the five minutes:
    after the next (undisturbed) start the request is gone from the messages
    it received, but its reply, which is not among those, was never destroyed.
    A request that arrives while the proxy is down is destroyed at the start,
    without an answer. *)
Theorem C80_reply_stays_refuted : forall handle x stop missed turns,
  ~ folds (dm_from (in_dm x)) handle -> asked (dm_text (in_dm x)) -> (stop < in_time x + 305)%N ->
  NoDup (missed ++ [dm_id (in_dm x)]) -> length missed < 200 -> Forall quiet turns -> 1 < length turns ->
  carried_out stop (orders (session handle 0 [x])) = [] /\
  deleteOldDMs turns (missed ++ [dm_id (in_dm x)]) = ([], missed ++ [dm_id (in_dm x)], true).
Proof.
  intros handle x stop missed turns NF AS ST ND L Q K. split.
  - cbn [session]. destruct (handled handle 0 x) as [dn ts] eqn:H. unfold orders. cbn [flat_map snd app]. rewrite app_nil_r.
    destruct (C80_orders handle 0 [x] x dn ts) as (_ & _ & _ & _ & _ & T); [cbn [session]; rewrite H; left; reflexivity|].
    destruct (T NF AS) as (-> & B). unfold carried_out. cbn [filter fst].
    destruct (N.leb_spec (dn + 300) stop); [lia|]. reflexivity.
  - apply (C80_clean_start turns _ 1); auto. rewrite app_length. cbn [length]. lia.
Qed.
Print Assumptions C80_reply_stays_refuted.

(** ** Concrete cases *)
Definition mail_case : incoming :=
  mkIncoming 10 (mkDM 7 [x61] (messagePrefix ++ [x7b; x7d])) 1 (Some 8%N).
Example C80_case : ~ folds (dm_from (in_dm mail_case)) [x62] /\ asked (dm_text (in_dm mail_case)) /\
  orders (session [x62] 0 [mail_case]) = [(316%N, 7%N); (316%N, 8%N)] /\
  quiet (mkTurn [] true (fun _ => true)) /\
  deleteOldDMs [mkTurn [] true (fun i => N.even i); mkTurn [5%N] true (fun _ => true); mkTurn [] true (fun _ => true)] [4; 3; 2]%N = ([], [4; 2; 5; 3]%N, true).
Proof.
  split; [intro F; apply EqualFold_spec in F; discriminate F|]. split; [exists [x7b; x7d]; reflexivity|].
  split; [reflexivity|]. split; [repeat split|reflexivity].
Qed.
