(** C85: the key-value store keeps its promises (storage/kv/kv.go:20-28):
    synchronous, atomic, linearizable, across crashes. *)
From Coq Require Import List NArith Lia Bool Arith.
From Verif Require Import Base Storage StorageFacts Kv KvSpec KvFacts Prop_Storage.
Import ListNotations.

(** Whatever is seen of the store - concurrent calls, failing calls, crashes
    at any moment - can be explained by letting each write take effect at one
    moment, as a whole ([KvSpec.correct]). *)
Theorem C85_linearizable : forall tr s, run empty_db tr s -> linearizable tr.
Proof.
  intros tr s R. destruct (Inv_run tr s R) as (h & u & E & I).
  exists h. split; [exact E|apply (i_correct _ _ _ I)].
Qed.
Print Assumptions C85_linearizable.

(** Splitting a history at something seen. *)
Lemma seen_split h : forall pre e post, seen h = pre ++ e :: post ->
  exists h1 h2, h = h1 ++ e :: h2 /\ seen h1 = pre /\ seen h2 = post.
Proof.
  induction h as [|x h IH]; intros pre e post E.
  - destruct pre; discriminate E.
  - unfold seen in E. cbn [filter] in E. destruct (visible x) eqn:V.
    + destruct pre as [|y pre]; cbn [app] in E; injection E as -> E.
      * exists [], h. auto.
      * destruct (IH pre e post E) as (h1 & h2 & -> & S1 & S2).
        exists (y :: h1), h2. split; [reflexivity|]. split; [|exact S2].
        unfold seen. cbn [filter]. rewrite V. f_equal. exact S1.
    + destruct (IH pre e post E) as (h1 & h2 & -> & S1 & S2).
      exists (x :: h1), h2. split; [reflexivity|]. split; [|exact S2].
      unfold seen. cbn [filter]. rewrite V. exact S1.
Qed.

Lemma in_seen h e : visible e = true -> In e h -> In e (seen h).
Proof. intros V I. apply filter_In. auto. Qed.

(** identifiers are used once *)
Lemma invoke_unique h : correct h -> forall a id c b a' c' b',
  h = a ++ EInvoke id c :: b -> h = a' ++ EInvoke id c' :: b' -> a = a' /\ c = c' /\ b = b'.
Proof.
  intros C a. revert h C. induction a as [|x a IH] using rev_ind; intros h C id c b a' c' b' E1 E2.
  - destruct a' as [|y a'].
    + rewrite E1 in E2. injection E2 as -> ->. auto.
    + exfalso. pose proof (C _ _ _ E2) as A. cbn [allowed] in A. apply (A c).
      rewrite E1 in E2. cbn [app] in E2. injection E2 as <- _. left; reflexivity.
  - assert (X : (exists t, a' = (a ++ [x]) ++ EInvoke id c :: t) \/ (exists t, a ++ [x] = a' ++ EInvoke id c' :: t)
                \/ a ++ [x] = a').
    { rewrite E1 in E2. revert a' E2. generalize (a ++ [x]). clear.
      induction l as [|y l IH]; intros a' E.
      - destruct a' as [|z a']; [auto|]. cbn [app] in E. injection E as <- E. left. exists a'. reflexivity.
      - destruct a' as [|z a']; cbn [app] in E; injection E as -> E.
        + right; left. exists l. reflexivity.
        + destruct (IH a' E) as [[t ->]|[[t ->]| ->]]; [left; exists t; reflexivity|right; left; exists t; reflexivity|auto]. }
    destruct X as [[t ->]|[[t X]| <-]].
    + exfalso. pose proof (C _ _ _ E2) as A. apply (A c). apply in_app_iff. right; left; reflexivity.
    + exfalso. pose proof (C _ _ _ E1) as A. apply (A c'). rewrite X. apply in_app_iff. right; left; reflexivity.
    + rewrite E1 in E2. apply app_inv_head in E2. injection E2 as -> ->. auto.
Qed.

Lemma done_app a b : done (a ++ b) = done a ++ done b.
Proof. rewrite !done_lins, lins_app, concat_app. reflexivity. Qed.

Lemma done_in h o : In o (done h) -> exists a id b d, h = a ++ ELin id b :: d /\ In o b.
Proof.
  induction h as [|e h IH]; [intros []|]. intro I.
  assert (R : In o (done h) -> exists a id b d, e :: h = a ++ ELin id b :: d /\ In o b).
  { intro I'. destruct (IH I') as (a & id & b & d & -> & Io). exists (e :: a), id, b, d. auto. }
  destruct e as [? ?|? ?|? ?|? ?| |id b]; cbn [done] in I; try (apply R; exact I).
  apply in_app_iff in I. destruct I as [I|I]; [|apply R; exact I].
  exists [], id, b, h. auto.
Qed.

(** After a writing call has returned without error, and as long as no other
    call writing the same key is in progress or is made, reading the key gives
    what that call wrote, whatever crashes, restarts, failures and other calls
    happen in between. *)
Theorem C85_durable : forall s id c b k v pre mid post r,
  run empty_db (pre ++ EInvoke id c :: mid ++ EReturn id true :: post ++ [EGet k r]) s ->
  effect c = Some b -> touches c k -> value_after b k v ->
  (* other calls writing k were over before this one was made *)
  (forall p1 j c' p2, pre = p1 ++ EInvoke j c' :: p2 -> touches c' k ->
     In ERestart p2 \/ exists ok, In (EReturn j ok) p2) ->
  (* and none was made later *)
  (forall j c', In (EInvoke j c') mid \/ In (EInvoke j c') post -> ~ touches c' k) ->
  r = v.
Proof.
  intros s id c b k v pre mid post r R Ef To Va Before After.
  destruct (C85_linearizable _ _ R) as (h & Sh & C).
  destruct (seen_split h _ _ _ Sh) as (h1 & ha & Eh & S1 & Sa).
  destruct (seen_split ha _ _ _ Sa) as (h2 & hb & Ea & S2 & Sb).
  destruct (seen_split hb post (EGet k r) [] Sb) as (h3 & h4 & Eb & S3 & S4).
  subst ha hb.
  (* the call has taken effect *)
  assert (Hret : allowed (h1 ++ EInvoke id c :: h2) (EReturn id true)).
  { apply (C _ _ (h3 ++ EGet k r :: h4)). rewrite Eh, <- app_assoc. reflexivity. }
  destruct Hret as (p1 & c1 & p2 & b1 & Ep & Ef1 & _ & _ & Li).
  assert (C12 : correct (h1 ++ EInvoke id c :: h2)).
  { intros p e q E. apply (C p e (q ++ EReturn id true :: h3 ++ EGet k r :: h4)).
    rewrite Eh. rewrite app_comm_cons, app_assoc, E, <- app_assoc. reflexivity. }
  destruct (invoke_unique _ C12 _ _ _ _ _ _ _ eq_refl Ep) as (<- & <- & <-).
  assert (b1 = b) by congruence; subst b1. clear Ep Ef1.
  apply in_split in Li. destruct Li as (a & d & ->).
  (* nothing else touches the key afterwards *)
  set (tl := d ++ EReturn id true :: h3) in *.
  assert (Eh' : h = (h1 ++ EInvoke id c :: a) ++ ELin id b :: tl ++ EGet k r :: h4).
  { rewrite Eh. unfold tl. repeat rewrite <- app_assoc. cbn [app]. repeat rewrite <- app_assoc. reflexivity. }
  assert (Later : forall o, In o (done tl) -> op_key o <> k).
  { intros o I K. apply done_in in I. destruct I as (t1 & j & b' & t2 & Et & Io).
    assert (AL : allowed ((h1 ++ EInvoke id c :: a) ++ ELin id b :: t1) (ELin j b')).
    { apply (C _ _ (t2 ++ EGet k r :: h4)). rewrite Eh', Et. repeat rewrite <- app_assoc. cbn [app].
      repeat rewrite <- app_assoc. reflexivity. }
    destruct AL as (q1 & c' & q2 & Eq & Ef' & NR & NE & NT & NF).
    assert (To' : touches c' k) by (exists b', o; auto).
    assert (Cq : correct ((h1 ++ EInvoke id c :: a) ++ ELin id b :: t1)).
    { intros p e q E. apply (C p e (q ++ ELin j b' :: t2 ++ EGet k r :: h4)).
      rewrite Eh', Et.
      replace (p ++ e :: q ++ ELin j b' :: t2 ++ EGet k r :: h4)
        with ((p ++ e :: q) ++ ELin j b' :: t2 ++ EGet k r :: h4) by (rewrite <- app_assoc; reflexivity).
      rewrite <- E. repeat rewrite <- app_assoc. cbn [app]. repeat rewrite <- app_assoc. reflexivity. }
    (* where was j invoked? *)
    assert (Ij : In (EInvoke j c') ((h1 ++ EInvoke id c :: a) ++ ELin id b :: t1)).
    { rewrite Eq. apply in_app_iff. right; left; reflexivity. }
    rewrite <- app_assoc in Ij. apply in_app_iff in Ij. destruct Ij as [Ij|Ij].
    - (* before this call *)
      apply in_split in Ij. destruct Ij as (x1 & x2 & ->).
      assert (EE : (((x1 ++ EInvoke j c' :: x2) ++ EInvoke id c :: a) ++ ELin id b :: t1)
                   = x1 ++ EInvoke j c' :: (x2 ++ EInvoke id c :: a ++ ELin id b :: t1)).
      { repeat rewrite <- app_assoc. cbn [app]. repeat rewrite <- app_assoc. reflexivity. }
      destruct (invoke_unique _ Cq _ _ _ _ _ _ _ EE Eq) as (_ & _ & <-).
      assert (Sx : pre = seen x1 ++ EInvoke j c' :: seen x2).
      { rewrite <- S1. rewrite seen_app. reflexivity. }
      destruct (Before _ _ _ _ Sx To') as [X|[ok X]];
        apply filter_In in X as [X _].
      + apply NR. apply in_app_iff; left; exact X.
      + destruct ok.
        * apply NT. apply in_app_iff; left; exact X.
        * apply in_split in X. destruct X as (y1 & y2 & ->).
          apply (NF y1 (y2 ++ EInvoke id c :: a ++ ELin id b :: t1)) with (j := id) (b' := b).
          -- rewrite <- app_assoc. reflexivity.
          -- apply in_app_iff; right; right. apply in_app_iff; right; left; reflexivity.
    - (* this call itself, or later *)
      cbn [In] in Ij. destruct Ij as [Ij|Ij].
      + injection Ij as <- <-.
        assert (EE : (h1 ++ EInvoke id c :: a) ++ ELin id b :: t1
                   = h1 ++ EInvoke id c :: (a ++ ELin id b :: t1)) by (rewrite <- app_assoc; reflexivity).
        destruct (invoke_unique _ Cq _ _ _ _ _ _ _ EE Eq) as (_ & _ & <-).
        apply (NE b). apply in_app_iff; right; left; reflexivity.
      + assert (Ij' : In (EInvoke j c') ((a ++ ELin id b :: d) ++ EReturn id true :: h3)).
        { rewrite <- app_assoc. cbn [app]. apply in_app_iff in Ij. apply in_app_iff.
          destruct Ij as [Ij|[Ij|Ij]]; [left; exact Ij|right; left; exact Ij|right; right].
          fold tl. rewrite Et. apply in_app_iff; left; exact Ij. }
        apply in_app_iff in Ij'. apply (After j c'); [|exact To'].
        destruct Ij' as [X|[X|X]]; [left|discriminate X|right].
        * rewrite <- S2. apply in_seen; [reflexivity|exact X].
        * rewrite <- S3. apply in_seen; [reflexivity|exact X]. }
  assert (G : allowed ((h1 ++ EInvoke id c :: a) ++ ELin id b :: tl) (EGet k r)).
  { apply (C _ _ h4). rewrite Eh'. repeat rewrite <- app_assoc. reflexivity. }
  cbn [allowed] in G. rewrite done_app in G. cbn [done] in G. apply value_after_eq in G.
  destruct Va as [b k Nv|l o rr k Ko Hr].
  - exfalso. destruct To as (b0 & o & E0 & Io & Ko). assert (b0 = b) by congruence; subst b0.
    exact (Nv o Io Ko).
  - rewrite G. symmetry. apply value_after_eq.
    rewrite <- (app_assoc l). cbn [app]. rewrite app_assoc. apply va_last; [exact Ko|].
    intros o' I. apply in_app_iff in I. destruct I; auto.
Qed.
Print Assumptions C85_durable.

(** The guarantee in the words of storage/kv/kv.go:22-25. *)
Theorem C85_put_get : forall s id k v pre mid post r,
  run empty_db (pre ++ EInvoke id (KPut k v) :: mid ++ EReturn id true :: post ++ [EGet k r]) s ->
  (forall p1 j c' p2, pre = p1 ++ EInvoke j c' :: p2 -> touches c' k ->
     In ERestart p2 \/ exists ok, In (EReturn j ok) p2) ->
  (forall j c', In (EInvoke j c') mid \/ In (EInvoke j c') post -> ~ touches c' k) ->
  r = Some v.
Proof.
  intros s id k v pre mid post r R B A. eapply (C85_durable s id (KPut k v) [BPut k v] k); eauto.
  - exists [BPut k v], (BPut k v). repeat split. left; reflexivity.
  - apply (va_last [] (BPut k v) []); [reflexivity|intros o []].
Qed.
Theorem C85_delete_get : forall s id k pre mid post r,
  run empty_db (pre ++ EInvoke id (KDelete k) :: mid ++ EReturn id true :: post ++ [EGet k r]) s ->
  (forall p1 j c' p2, pre = p1 ++ EInvoke j c' :: p2 -> touches c' k ->
     In ERestart p2 \/ exists ok, In (EReturn j ok) p2) ->
  (forall j c', In (EInvoke j c') mid \/ In (EInvoke j c') post -> ~ touches c' k) ->
  r = None.
Proof.
  intros s id k pre mid post r R B A. eapply (C85_durable s id (KDelete k) [BDel k] k); eauto.
  - exists [BDel k], (BDel k). repeat split. left; reflexivity.
  - apply (va_last [] (BDel k) []); [reflexivity|intros o []].
Qed.
Print Assumptions C85_put_get.
Print Assumptions C85_delete_get.

(** A batch, however it was put together, is written as the puts and deletes
    called on it since its last Reset, in that order. *)
Definition call_op (c : bcall) : list bop :=
  match c with CReset => [] | CPut k v => [BPut k v] | CDelete k => [BDel k] end.
Theorem C85_batch_calls : forall before after, ~ In CReset after ->
  (before = [] \/ exists l, before = l ++ [CReset]) ->
  effect (KWrite (fold_left batch_call (before ++ after) NewBatch)) = Some (flat_map call_op after).
Proof.
  assert (L : forall cs ops, ~ In CReset cs ->
            fold_left batch_call cs (LevelBatch ops) = LevelBatch (ops ++ flat_map call_op cs)).
  { induction cs as [|c cs IH]; intros ops N; cbn [fold_left flat_map]; [rewrite app_nil_r; reflexivity|].
    destruct c as [|k v|k]; cbn [batch_call call_op].
    - exfalso. apply N. left; reflexivity.
    - rewrite IH, <- app_assoc; [reflexivity|]. intro; apply N; right; assumption.
    - rewrite IH, <- app_assoc; [reflexivity|]. intro; apply N; right; assumption. }
  assert (B : forall cs b, (exists ops, b = LevelBatch ops) -> exists ops, fold_left batch_call cs b = LevelBatch ops).
  { induction cs as [|c cs IH]; intros b Hb; cbn [fold_left]; [exact Hb|]. apply IH.
    destruct Hb as [ops ->]. destruct c; cbn [batch_call]; eexists; reflexivity. }
  intros before after N [->|[l ->]].
  - cbn [app]. unfold NewBatch. rewrite L by exact N. reflexivity.
  - rewrite fold_left_app, fold_left_app. destruct (B l NewBatch) as [ops ->]; [eexists; reflexivity|].
    cbn [fold_left batch_call]. rewrite L by exact N. reflexivity.
Qed.
Print Assumptions C85_batch_calls.

(** Writing a batch of another implementation never succeeds and never changes
    anything. *)
Theorem C85_foreign_batch : forall tr s id n, run empty_db tr s ->
  In (EInvoke id (KWrite (OtherBatch n))) tr ->
  ~ In (EReturn id true) tr /\
  exists h, seen h = tr /\ correct h /\ no_effect_of id h.
Proof.
  intros tr s id n R I. destruct (C85_linearizable tr s R) as (h & Sh & C).
  assert (Ih : In (EInvoke id (KWrite (OtherBatch n))) h).
  { rewrite <- Sh in I. apply filter_In in I as [I _]. exact I. }
  assert (U : forall p e q c, h = p ++ e :: q -> In (EInvoke id c) p -> c = KWrite (OtherBatch n)).
  { intros p e q c -> Ic. apply in_split in Ic. destruct Ic as (x & y & ->).
    apply in_split in Ih. destruct Ih as (x' & y' & Ez).
    rewrite <- app_assoc in Ez. cbn [app] in Ez.
    assert (C' : correct (x' ++ EInvoke id (KWrite (OtherBatch n)) :: y')).
    { rewrite <- Ez. rewrite <- app_assoc in C. exact C. }
    destruct (invoke_unique _ C' _ _ _ _ _ _ _ eq_refl (eq_sym Ez)) as (_ & E & _). congruence. }
  split.
  - intro X. rewrite <- Sh in X. apply filter_In in X as [X _]. apply in_split in X. destruct X as (p & q & E).
    pose proof (C _ _ _ E) as (p1 & c & p2 & b & Ep & Ef & _).
    assert (c = KWrite (OtherBatch n)); [|subst c; discriminate Ef].
    eapply U; [exact E|]. rewrite Ep. apply in_app_iff; right; left; reflexivity.
  - exists h. split; [exact Sh|]. split; [exact C|]. intros b X. apply in_split in X. destruct X as (p & q & E).
    pose proof (C _ _ _ E) as (p1 & c & p2 & Ep & Ef & _).
    assert (c = KWrite (OtherBatch n)); [|subst c; discriminate Ef].
    eapply U; [exact E|]. rewrite Ep. apply in_app_iff; right; left; reflexivity.
Qed.
Print Assumptions C85_foreign_batch.

(** Scanning with an iterator gives exactly the entries in the range that Get
    would find at the moment the iterator was made, each once, in ascending
    order of keys. *)
Theorem C85_scan : forall tr s rg fuel, run empty_db tr s ->
  let it := NewIterator (d_mem s) rg in
  length (it_items it) < fuel ->
  (forall i j a b, i < j -> nth_error (scan fuel it) i = Some a ->
     nth_error (scan fuel it) j = Some b -> lex_lt (fst a) (fst b)) /\
  (forall k v, In (k, v) (scan fuel it) <->
     match rg with None => True | Some r => in_range r k end /\ step s [EGet k (Some v)] s).
Proof.
  intros tr s rg fuel R it L. destruct (Inv_run tr s R) as (h & u & _ & I).
  assert (E : scan fuel it = it_items it) by (apply scan_all; [discriminate|exact L]).
  rewrite E. pose proof (read_allowed_iter s h u rg I) as [A B]. split; [exact A|].
  intros k v. fold it in B. rewrite B.
  pose proof (read_allowed_get s h u k I) as G. cbn [allowed] in G. apply value_after_eq in G.
  split; intros [H1 H2]; split; auto.
  - apply value_after_eq in H2. rewrite <- G in H2. rewrite H2. constructor.
  - assert (X : Some v = lookup k (d_mem s)).
    { remember [EGet k (Some v)] as e eqn:Ee. destruct H2; try discriminate Ee.
      injection Ee as -> ->. reflexivity. }
    rewrite X, G. apply value_after_val.
Qed.
Print Assumptions C85_scan.

(** In particular over a prefix. *)
Theorem C85_scan_prefix : forall tr s p fuel, run empty_db tr s ->
  let it := NewIterator (d_mem s) (Some (BytesPrefix p)) in
  length (it_items it) < fuel ->
  forall k v, In (k, v) (scan fuel it) <-> has_prefix p k /\ step s [EGet k (Some v)] s.
Proof.
  intros tr s p fuel R it L k v. rewrite <- (C47_prefix_range p k).
  apply (proj2 (C85_scan tr s (Some (BytesPrefix p)) fuel R L)).
Qed.
Print Assumptions C85_scan_prefix.

(** First and Last stand on the least and the greatest key, and say false
    exactly when there is nothing; a released iterator says false. *)
Theorem C85_first_last : forall tr s rg, run empty_db tr s ->
  let it := NewIterator (d_mem s) rg in
  (snd (First it) = false <-> it_items it = []) /\
  (snd (Last it) = false <-> it_items it = []) /\
  (forall e, Current (fst (First it)) = Some e -> forall e', In e' (it_items it) -> lex_le (fst e) (fst e')) /\
  (forall e, Current (fst (Last it)) = Some e -> forall e', In e' (it_items it) -> lex_le (fst e') (fst e)) /\
  (snd (First it) = true -> Current (fst (First it)) <> None) /\
  (snd (Last it) = true -> Current (fst (Last it)) <> None) /\
  snd (First (Release it)) = false /\ snd (Next (Release it)) = false /\ snd (Last (Release it)) = false.
Proof.
  intros tr s rg R it. destruct (Inv_run tr s R) as (h & u & _ & I).
  pose proof (read_allowed_iter s h u rg I) as [A _]. fold it in A.
  assert (P : it_pos it = AtStart) by reflexivity.
  clearbody it. destruct it as [items pos]; cbn [it_pos it_items] in *; subst pos.
  assert (FI : items = [] \/ exists e l, items = e :: l) by (destruct items; [auto|right; eexists _, _; reflexivity]).
  destruct FI as [->|(e0 & l & ->)].
  - cbn. repeat split; auto; try discriminate; intros e H; discriminate H.
  - unfold First, Last, goto, Current, Release, Next. cbn [it_pos it_items length Nat.ltb Nat.leb fst snd].
    repeat split; try discriminate.
    + intros e H e' J. cbn [nth_error] in H. injection H as <-. destruct J as [<-|J]; [left; reflexivity|].
      right. apply In_nth_error in J. destruct J as [j J]. apply (A 0 (S j) e0 e'); [lia|reflexivity|exact J].
    + intros e H e' J. apply In_nth_error in J. destruct J as [j J].
      assert (LT : j < length (e0 :: l)) by (apply nth_error_Some; congruence). cbn [length] in LT.
      destruct (Nat.eq_dec j (length l)) as [->|Nj].
      * left. rewrite J in H. injection H as <-. reflexivity.
      * right. apply (A j (length l) e' e); [lia|exact J|exact H].
    + intros _ H. apply nth_error_None in H. cbn [length] in H. lia.
Qed.
Print Assumptions C85_first_last.

(** A call by itself can go through on a store that accepts writes. *)
Theorem C85_can_succeed : forall s id c b, ~ In id (d_used s) -> effect c = Some b ->
  d_holder s = None -> d_broken s = false -> d_pend s = [] ->
  exists s', run s ([EInvoke id c] ++ [] ++ [] ++ [] ++ [EReturn id true]) s' /\
    d_pend s' = [] /\ d_holder s' = None /\ d_broken s' = false.
Proof.
  intros s id c b F E H B P.
  destruct (wrapper_shape c) as [(b' & E' & W)|[E' W]]; [|congruence].
  assert (b' = b) by congruence; subst b'.
  eexists. split.
  - rewrite app_assoc, app_assoc, app_assoc.
    eapply run_snoc; [eapply run_snoc; [eapply run_snoc; [eapply run_snoc; [apply (run_snoc s [] s); [apply run_nil|apply (s_invoke s id c F)]|]|]|]|].
    + eapply (s_append _ id b [PSync; PApply b]); cbn [d_pend d_holder d_broken]; auto. rewrite W. left; reflexivity.
    + eapply (s_sync _ id [PApply b]). cbn [d_pend advance map fst]. rewrite Nat.eqb_refl. left; reflexivity.
    + eapply (s_apply _ id b []). cbn [d_pend advance map fst]. rewrite !Nat.eqb_refl. left; reflexivity.
    + eapply (s_return _ id). cbn [d_pend advance map fst]. rewrite !Nat.eqb_refl. left; reflexivity.
  - cbn [d_pend d_holder d_broken finish filter advance map fst release].
    rewrite P. cbn [fst negb map filter]. repeat (rewrite Nat.eqb_refl; cbn [fst negb map filter]). auto.
Qed.
Print Assumptions C85_can_succeed.

(** ** Concrete executions *)
Ltac nx f :=
  match goal with R : run empty_db ?tr ?s |- _ =>
    let R' := fresh "R" in
    eassert (R' : run empty_db (tr ++ _) _)
      by (eapply run_snoc; [exact R|eapply (f s); cbn; first [tauto|lia|reflexivity]]);
    cbn in R'; clear R
  end.
Section Examples.
  Let k : bytes := [x61]. Let k2 : bytes := [x61; x62]. Let v : bytes := [x31]. Let v2 : bytes := [x32].

  (** a put, then a batch interrupted by a crash after its record reached the
      disk but before the call returned; everything is there afterwards *)
  Example C85_example_kept : exists s, run empty_db
    [EInvoke 1 (KPut k v); EReturn 1 true; EInvoke 2 (KWrite (LevelBatch [BPut k2 v2; BDel k])); ERestart;
     EGet k None; EGet k2 (Some v2)] s.
  Proof.
    pose proof (run_nil empty_db) as R.
    nx (fun s => s_invoke s 1 (KPut k v)).
    nx (fun s => s_append s 1 [BPut k v] [PSync; PApply [BPut k v]]).
    nx (fun s => s_sync s 1 [PApply [BPut k v]]).
    nx (fun s => s_apply s 1 [BPut k v] []).
    nx (fun s => s_return s 1).
    nx (fun s => s_invoke s 2 (KWrite (LevelBatch [BPut k2 v2; BDel k]))).
    nx (fun s => s_append s 2 [BPut k2 v2; BDel k] [PSync; PApply [BPut k2 v2; BDel k]]).
    nx (fun s => s_restart s 1).
    nx (fun s => s_get s k). nx (fun s => s_get s k2).
    eexists. eassumption.
  Qed.
  (** the same, the record lost: nothing of the batch is there *)
  Example C85_example_lost : exists s, run empty_db
    [EInvoke 1 (KPut k v); EReturn 1 true; EInvoke 2 (KWrite (LevelBatch [BPut k2 v2; BDel k])); ERestart;
     EGet k (Some v); EGet k2 None] s.
  Proof.
    pose proof (run_nil empty_db) as R.
    nx (fun s => s_invoke s 1 (KPut k v)).
    nx (fun s => s_append s 1 [BPut k v] [PSync; PApply [BPut k v]]).
    nx (fun s => s_sync s 1 [PApply [BPut k v]]).
    nx (fun s => s_apply s 1 [BPut k v] []).
    nx (fun s => s_return s 1).
    nx (fun s => s_invoke s 2 (KWrite (LevelBatch [BPut k2 v2; BDel k]))).
    nx (fun s => s_append s 2 [BPut k2 v2; BDel k] [PSync; PApply [BPut k2 v2; BDel k]]).
    nx (fun s => s_restart s 0).
    nx (fun s => s_get s k). nx (fun s => s_get s k2).
    eexists. eassumption.
  Qed.
  (** the specification refuses wrong answers: it is not satisfied by every
      trace *)
  Example C85_spec_refuses :
    ~ linearizable [EInvoke 1 (KPut k v); EReturn 1 true; ERestart; EGet k None].
  Proof.
    intros (h & Sh & C).
    destruct (seen_split h [] _ _ Sh) as (h1 & ha & Eh & S1 & Sa).
    destruct (seen_split ha [] _ _ Sa) as (h2 & hb & Ea & S2 & Sb).
    destruct (seen_split hb [] _ _ Sb) as (h3 & hc & Eb & S3 & Sc).
    destruct (seen_split hc [] _ _ Sc) as (h4 & h5 & Ec & S4 & _).
    subst ha hb hc.
    assert (NI : forall g j c, seen g = [] -> ~ In (EInvoke j c) g).
    { intros g j c E I. apply (in_seen g (EInvoke j c) eq_refl) in I. rewrite E in I. exact I. }
    assert (OnlyOne : forall p j b q, h = p ++ ELin j b :: q -> b = [BPut k v]).
    { intros p j b q E. destruct (C _ _ _ E) as (p1 & c & p2 & Ep & Ef & _).
      assert (Ic : In (EInvoke j c) h) by (rewrite E, Ep, <- app_assoc; apply in_app_iff; right; left; reflexivity).
      apply (in_seen h (EInvoke j c) eq_refl) in Ic. rewrite Sh in Ic.
      destruct Ic as [Ic|[Ic|[Ic|[Ic|[]]]]]; try discriminate Ic. injection Ic as <- <-.
      injection Ef as <-. reflexivity. }
    assert (R : allowed (h1 ++ EInvoke 1 (KPut k v) :: h2) (EReturn 1 true)).
    { apply (C _ _ (h3 ++ ERestart :: h4 ++ EGet k None :: h5)). rewrite Eh, <- app_assoc. reflexivity. }
    destruct R as (p1 & c & p2 & b & Ep & Ef & _ & _ & Li).
    assert (Lh : In (ELin 1 b) (h1 ++ EInvoke 1 (KPut k v) :: h2))
      by (rewrite Ep; apply in_app_iff; right; right; exact Li).
    assert (G : allowed (h1 ++ EInvoke 1 (KPut k v) :: h2 ++ EReturn 1 true :: h3 ++ ERestart :: h4) (EGet k None)).
    { apply (C _ _ h5). rewrite Eh. rewrite <- app_assoc. cbn [app]. rewrite <- app_assoc. cbn [app].
      rewrite <- app_assoc. reflexivity. }
    set (g := h1 ++ EInvoke 1 (KPut k v) :: h2 ++ EReturn 1 true :: h3 ++ ERestart :: h4) in *.
    assert (Hg : h = g ++ EGet k None :: h5).
    { unfold g. rewrite Eh, <- app_assoc. cbn [app]. rewrite <- app_assoc. cbn [app].
      rewrite <- app_assoc. reflexivity. }
    assert (Ig : In (BPut k v) (done g)).
    { apply in_split in Lh. destruct Lh as (x & y & Exy).
      unfold g. replace (h1 ++ EInvoke 1 (KPut k v) :: h2 ++ EReturn 1 true :: h3 ++ ERestart :: h4)
        with ((h1 ++ EInvoke 1 (KPut k v) :: h2) ++ EReturn 1 true :: h3 ++ ERestart :: h4)
        by (rewrite <- app_assoc; reflexivity).
      rewrite Exy, <- app_assoc, done_app. cbn [done app].
      assert (b = [BPut k v]) as ->.
      { apply (OnlyOne x 1 b (y ++ EReturn 1 true :: h3 ++ ERestart :: h4 ++ EGet k None :: h5)).
        rewrite Eh. rewrite app_comm_cons, app_assoc, Exy, <- app_assoc. reflexivity. }
      apply in_app_iff; right; left; reflexivity. }
    assert (All : forall o, In o (done g) -> o = BPut k v).
    { intros o I. apply done_in in I. destruct I as (x & j & b' & y & E & I).
      assert (b' = [BPut k v]) as -> by (apply (OnlyOne x j b' (y ++ EGet k None :: h5)); rewrite Hg, E, <- app_assoc; reflexivity).
      destruct I as [<-|[]]; reflexivity. }
    cbn [allowed] in G. remember (@None bytes) as r eqn:Er. clear - G Er All Ig.
    remember (done g) as ops eqn:Eo. clear Eo. remember k as kk eqn:Ek.
    destruct G as [ops kk' H|l o rr kk' Ko H].
    - apply (H _ Ig). reflexivity.
    - assert (o = BPut kk' v) as -> by (apply All; apply in_app_iff; right; left; reflexivity).
      discriminate Er.
  Qed.
End Examples.

(** A case: two writers at once, a batch and a put; the batch is done, a
    foreign batch is refused, the put is cut short by a crash and lost; then
    both keys are read.  It meets the hypotheses of C85_linearizable,
    C85_durable and C85_foreign_batch. *)
Definition kv_batch : Batch := LevelBatch [BPut [x61] [x31]; BPut [x62] [x32]; BDel [x62]].
Definition kv_mid : list event := [EInvoke 1 (KPut [x63] [x33])].
Definition kv_post : list event := [EInvoke 2 (KWrite (OtherBatch [x74])); EReturn 2 false; ERestart; EGet [x63] None].
Example C85_case : exists s,
  run empty_db ([] ++ EInvoke 0 (KWrite kv_batch) :: kv_mid ++ EReturn 0 true :: kv_post ++ [EGet [x61] (Some [x31])]) s /\
  effect (KWrite kv_batch) = Some [BPut [x61] [x31]; BPut [x62] [x32]; BDel [x62]] /\
  touches (KWrite kv_batch) [x61] /\ value_after [BPut [x61] [x31]; BPut [x62] [x32]; BDel [x62]] [x61] (Some [x31]) /\
  (forall j c', In (EInvoke j c') kv_mid \/ In (EInvoke j c') kv_post -> ~ touches c' [x61]) /\
  In (EInvoke 2 (KWrite (OtherBatch [x74]))) kv_post /\
  scan 5 (NewIterator (d_mem s) None) = [([x61], [x31])].
Proof.
  pose (b := [BPut [x61] [x31]; BPut [x62] [x32]; BDel [x62]]). pose (b1 := [BPut [x63] [x33]]).
  pose (w1 := (1, [PAppend b1; PSync; PApply b1])).
  pose (m := [([x61], [x31])] : contents).
  exists (mkdb [b] [] m false [] None [2; 1; 0]). split.
  { change ([] ++ EInvoke 0 (KWrite kv_batch) :: kv_mid ++ EReturn 0 true :: kv_post ++ [EGet [x61] (Some [x31])])
      with (((((((((((([] ++ [EInvoke 0 (KWrite kv_batch)]) ++ [EInvoke 1 (KPut [x63] [x33])]) ++ []) ++ []) ++ []) ++ [EReturn 0 true]) ++
        [EInvoke 2 (KWrite (OtherBatch [x74]))]) ++ [EReturn 2 false]) ++ []) ++ [ERestart]) ++ [EGet [x63] None]) ++ [EGet [x61] (Some [x31])]).
    apply (run_snoc _ _ (mkdb [b] [] m false [] None [2; 1; 0])); [|exact (s_get (mkdb [b] [] m false [] None [2; 1; 0]) [x61])].
    apply (run_snoc _ _ (mkdb [b] [] m false [] None [2; 1; 0])); [|exact (s_get (mkdb [b] [] m false [] None [2; 1; 0]) [x63])].
    pose (s9 := mkdb [b] [b1] m false [(1, [PSync; PApply b1])] (Some 1) [2; 1; 0]).
    apply (run_snoc _ _ s9); [|exact (s_restart s9 0)].
    pose (s8 := mkdb [b] [] m false [w1] None [2; 1; 0]).
    apply (run_snoc _ _ s8); [|exact (s_append s8 1 b1 [PSync; PApply b1] (or_introl eq_refl) eq_refl eq_refl)].
    pose (s7 := mkdb [b] [] m false [(2, [PErr]); w1] None [2; 1; 0]).
    apply (run_snoc _ _ s7); [|exact (s_error s7 2 [] (or_introl eq_refl))].
    pose (s6 := mkdb [b] [] m false [w1] None [1; 0]).
    apply (run_snoc _ _ s6); [|refine (s_invoke s6 2 (KWrite (OtherBatch [x74])) _); intros [X|[X|[]]]; discriminate X].
    pose (s5 := mkdb [b] [] m false [w1; (0, [])] (Some 0) [1; 0]).
    apply (run_snoc _ _ s5); [|exact (s_return s5 0 (or_intror (or_introl eq_refl)))].
    pose (s4 := mkdb [b] [] [] false [w1; (0, [PApply b])] (Some 0) [1; 0]).
    apply (run_snoc _ _ s4); [|exact (s_apply s4 0 b [] (or_intror (or_introl eq_refl)))].
    pose (s3 := mkdb [] [b] [] false [w1; (0, [PSync; PApply b])] (Some 0) [1; 0]).
    apply (run_snoc _ _ s3); [|exact (s_sync s3 0 [PApply b] (or_intror (or_introl eq_refl)))].
    pose (s2 := mkdb [] [] [] false [w1; (0, [PAppend b; PSync; PApply b])] None [1; 0]).
    apply (run_snoc _ _ s2); [|exact (s_append s2 0 b [PSync; PApply b] (or_intror (or_introl eq_refl)) eq_refl eq_refl)].
    pose (s1 := mkdb [] [] [] false [(0, [PAppend b; PSync; PApply b])] None [0]).
    apply (run_snoc _ _ s1); [|refine (s_invoke s1 1 (KPut [x63] [x33]) _); intros [X|[]]; discriminate X].
    apply (run_snoc _ _ empty_db); [apply run_nil|]. refine (s_invoke empty_db 0 (KWrite kv_batch) _). intros []. }
  split; [reflexivity|]. split; [eexists; exists (BPut [x61] [x31]); split; [reflexivity|]; split; [left; reflexivity|reflexivity]|].
  split; [apply (va_last [] (BPut [x61] [x31]) [BPut [x62] [x32]; BDel [x62]]); [reflexivity|]; intros o [<-|[<-|[]]]; discriminate|].
  split; [|split; [left; reflexivity|reflexivity]].
  intros j c' H (b0 & o & E & I & K).
  assert (CS : c' = KPut [x63] [x33] \/ c' = KWrite (OtherBatch [x74])).
  { destruct H as [[X|[]]|[X|[X|[X|[X|[]]]]]]; try discriminate X; injection X as _ <-; auto. }
  destruct CS as [-> | ->]; [|discriminate E]. injection E as <-. destruct I as [<-|[]]. discriminate K.
Qed.
