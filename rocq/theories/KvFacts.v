(** Proofs about the key-value store. *)
From Coq Require Import List NArith Lia Bool Arith Sorting.Sorted.
From Verif Require Import Base Storage StorageFacts Kv KvSpec.
Import ListNotations.

(** * The order of keys *)
Lemma lexb_lt a : forall b, lexb a b = true <-> lex_lt a b.
Proof.
  induction a as [|x a IH]; intros [|y b]; cbn [lexb].
  - split; [discriminate|intro H; inversion H].
  - split; [constructor|reflexivity].
  - split; [discriminate|intro H; inversion H].
  - destruct (N.ltb_spec (Byte.to_N x) (Byte.to_N y)) as [L|L].
    + split; [intro; apply lex_head; exact L|reflexivity].
    + destruct (N.eqb_spec (Byte.to_N x) (Byte.to_N y)) as [E|E].
      * apply to_N_inj in E; subst y. rewrite IH. split; [apply lex_tail|].
        intro H. apply lex_lt_inv in H. destruct H as [H|[_ H]]; [lia|exact H].
      * split; [discriminate|]. intro H. apply lex_lt_inv in H.
        destruct H as [H|[-> H]]; [lia|congruence].
Qed.

Lemma lexb_ge a b : lexb a b = false <-> lex_le b a.
Proof.
  unfold lex_le. split.
  - intro H. destruct (lex_total a b) as [L|[L|L]]; auto.
    apply lexb_lt in L; congruence.
  - intro H. destruct (lexb a b) eqn:E; [|reflexivity]. apply lexb_lt in E.
    destruct H as [->|H]; exfalso; [eapply lex_irrefl; eauto|].
    eapply (lex_irrefl a); eapply lex_trans; eauto.
Qed.

Definition key_lt (a b : bytes * bytes) : Prop := lex_lt (fst a) (fst b).
Definition sorted (m : contents) := StronglySorted key_lt m.

Lemma Forall_put k v m (a : bytes * bytes) :
  key_lt a (k, v) -> Forall (key_lt a) m -> Forall (key_lt a) (put k v m).
Proof.
  intros Ha. induction m as [|[k' v'] r IH]; intro F; cbn [put].
  - constructor; auto.
  - pose proof (Forall_inv F). apply Forall_inv_tail in F.
    destruct (lexb k k'); [constructor; auto|]. destruct (beq k k'); constructor; auto.
Qed.

Lemma sorted_put k v m : sorted m -> sorted (put k v m).
Proof.
  induction m as [|[k' v'] r IH]; intro S; cbn [put].
  - constructor; constructor.
  - apply StronglySorted_inv in S as [S F].
    destruct (lexb k k') eqn:L.
    + apply lexb_lt in L. constructor; [constructor; assumption|].
      constructor; [exact L|]. eapply Forall_impl; [|exact F].
      intros a Ha. unfold key_lt in *; cbn [fst] in *. eapply lex_trans; eauto.
    + destruct (beq k k') eqn:E.
      * apply beq_eq in E; subst k'. constructor; assumption.
      * apply beq_neq in E. apply lexb_ge in L. destruct L as [L|L]; [congruence|].
        constructor; [apply IH; exact S|]. apply Forall_put; assumption.
Qed.

Lemma Forall_del P k m : Forall P m -> Forall P (del k m).
Proof.
  induction m as [|[k' v'] r IH]; intro F; cbn [del]; auto.
  pose proof (Forall_inv F). apply Forall_inv_tail in F.
  destruct (beq k k'); auto.
Qed.

Lemma sorted_del k m : sorted m -> sorted (del k m).
Proof.
  induction m as [|[k' v'] r IH]; intro S; cbn [del]; auto.
  apply StronglySorted_inv in S as [S F].
  destruct (beq k k'); auto. constructor; [apply IH; exact S|apply Forall_del; exact F].
Qed.

Lemma lookup_above k m : Forall (fun e => lex_lt k (fst e)) m -> lookup k m = None.
Proof.
  induction m as [|[k' v'] r IH]; intro F; cbn [lookup]; auto.
  pose proof (Forall_inv F) as H. apply Forall_inv_tail in F. cbn [fst] in H.
  destruct (beq k k') eqn:E; auto. apply beq_eq in E; subst.
  exfalso; eapply lex_irrefl; eauto.
Qed.

Lemma lookup_put k v m j : lookup j (put k v m) = if beq j k then Some v else lookup j m.
Proof.
  induction m as [|[k' v'] r IH]; cbn [put lookup]; auto.
  destruct (lexb k k') eqn:L; [reflexivity|].
  destruct (beq k k') eqn:E.
  - apply beq_eq in E; subst k'. cbn [lookup]. destruct (beq j k); reflexivity.
  - cbn [lookup]. destruct (beq j k') eqn:E2; [|apply IH].
    apply beq_eq in E2; subst j. rewrite beq_sym in E. rewrite E. reflexivity.
Qed.

Lemma lookup_del k m j : sorted m -> lookup j (del k m) = if beq j k then None else lookup j m.
Proof.
  induction m as [|[k' v'] r IH]; intro S; cbn [del lookup].
  - destruct (beq j k); reflexivity.
  - apply StronglySorted_inv in S as [S F].
    destruct (beq k k') eqn:E.
    + apply beq_eq in E; subst k'. destruct (beq j k) eqn:E2; [|reflexivity].
      apply beq_eq in E2; subst j. apply lookup_above. exact F.
    + cbn [lookup]. destruct (beq j k') eqn:E2; [|apply IH; exact S].
      apply beq_eq in E2; subst j. rewrite beq_sym in E. rewrite E. reflexivity.
Qed.

Lemma lookup_In m : sorted m -> forall k v, In (k, v) m <-> lookup k m = Some v.
Proof.
  induction m as [|[k' v'] r IH]; intros S k v; cbn [lookup In].
  - split; [tauto|discriminate].
  - apply StronglySorted_inv in S as [S F]. destruct (beq k k') eqn:E.
    + apply beq_eq in E; subst k'. split.
      * intros [H|H]; [congruence|]. apply IH in H; [|exact S].
        rewrite (lookup_above k r F) in H. discriminate H.
      * intro H; left; congruence.
    + apply beq_neq in E. rewrite <- (IH S). split; [|tauto].
      intros [H|H]; [congruence|exact H].
Qed.

(** * Values after puts and deletes *)
Definition upd (k : bytes) (acc : option bytes) (o : bop) : option bytes :=
  if beq (op_key o) k then op_value o else acc.
Definition val (ops : list bop) (k : bytes) : option bytes := fold_left (upd k) ops None.

Lemma upd_none k ops acc : (forall o, In o ops -> op_key o <> k) -> fold_left (upd k) ops acc = acc.
Proof.
  revert acc. induction ops as [|o r IH]; intros acc H; cbn [fold_left]; auto.
  unfold upd at 2. rewrite (proj2 (beq_neq _ _)); [|apply H; left; reflexivity].
  apply IH. intros; apply H; right; assumption.
Qed.

Lemma value_after_eq ops k r : value_after ops k r -> r = val ops k.
Proof.
  destruct 1 as [ops k H|l o r k K H].
  - symmetry. apply upd_none. exact H.
  - unfold val. rewrite fold_left_app. cbn [fold_left]. rewrite upd_none by exact H.
    unfold upd. rewrite K, beq_refl. reflexivity.
Qed.

Lemma value_after_val ops k : value_after ops k (val ops k).
Proof.
  induction ops as [|o ops IH] using rev_ind.
  - apply va_never. intros o [].
  - unfold val. rewrite fold_left_app. cbn [fold_left]. unfold upd at 1.
    destruct (beq (op_key o) k) eqn:E.
    + apply beq_eq in E. apply va_last; [exact E|intros o' []].
    + apply beq_neq in E. fold (val ops k). remember (val ops k) as v eqn:Ev. clear Ev.
      destruct IH as [ops k H|l o1 r k K H].
      * apply va_never. intros o' I. apply in_app_iff in I. destruct I as [I|[<-|[]]]; auto.
      * rewrite <- app_assoc. cbn [app]. apply va_last; [exact K|].
        intros o' I. apply in_app_iff in I. destruct I as [I|[<-|[]]]; auto.
Qed.

Lemma sorted_op m o : sorted m -> sorted (apply_op m o).
Proof. destruct o; cbn [apply_op]; [apply sorted_put|apply sorted_del]. Qed.

Lemma lookup_op m o k : sorted m -> lookup k (apply_op m o) = upd k (lookup k m) o.
Proof.
  intro S. unfold upd. destruct o as [j v|j]; cbn [apply_op op_key op_value];
    [rewrite lookup_put|rewrite lookup_del by exact S]; rewrite (beq_sym k j); reflexivity.
Qed.

Lemma batch_lookup b : forall m, sorted m ->
  sorted (apply_batch m b) /\ forall k, lookup k (apply_batch m b) = fold_left (upd k) b (lookup k m).
Proof.
  unfold apply_batch. induction b as [|o b IH]; intros m S; cbn [fold_left]; [auto|].
  destruct (IH (apply_op m o) (sorted_op m o S)) as [S' L]. split; [exact S'|].
  intro k. rewrite L, lookup_op by exact S. reflexivity.
Qed.

Lemma replay_snoc l b : replay (l ++ [b]) = apply_batch (replay l) b.
Proof. unfold replay. rewrite fold_left_app. reflexivity. Qed.

Lemma replay_spec l : sorted (replay l) /\ forall k, lookup k (replay l) = val (concat l) k.
Proof.
  induction l as [|b l IH] using rev_ind.
  - split; [constructor|reflexivity].
  - rewrite replay_snoc. destruct IH as [S L]. destruct (batch_lookup b _ S) as [S' L'].
    split; [exact S'|]. intro k. rewrite L', L, concat_app. cbn [concat]. rewrite app_nil_r.
    unfold val. rewrite fold_left_app. reflexivity.
Qed.

(** * Iterators *)
Lemma in_slice_range rg k : in_slice (leveldb_range rg) k = true <->
  match rg with None => True | Some r => in_range r k end.
Proof.
  destruct rg as [r|]; cbn [leveldb_range in_slice]; [|tauto].
  unfold in_range. rewrite andb_true_iff, negb_true_iff, lexb_ge.
  destruct (rg_limit r); [rewrite lexb_lt; tauto|tauto].
Qed.

Lemma sorted_filter P m : sorted m -> sorted (filter P m).
Proof.
  induction 1 as [|a m S IH F]; cbn [filter]; [constructor|].
  destruct (P a); [|exact IH]. constructor; [exact IH|].
  apply Forall_forall. intros x I. apply filter_In in I as [I _].
  rewrite Forall_forall in F. auto.
Qed.

Lemma sorted_nth m : sorted m -> forall i j a b, i < j -> nth_error m i = Some a ->
  nth_error m j = Some b -> key_lt a b.
Proof.
  induction 1 as [|x m S IH F]; intros i j a b L A B.
  - destruct i; discriminate A.
  - destruct j as [|j]; [lia|]. cbn [nth_error] in B. destruct i as [|i]; cbn [nth_error] in A.
    + injection A as <-. rewrite Forall_forall in F. apply F. eapply nth_error_In; eauto.
    + eapply (IH i j); eauto; lia.
Qed.

Lemma scan_from_at items : forall fuel i, length items - i < fuel ->
  scan_from fuel (goto (mkIter items AtStart) i) = skipn i items.
Proof.
  induction fuel as [|f IH]; intros i L; [lia|].
  unfold goto. cbn [it_items]. destruct (Nat.ltb_spec i (length items)) as [B|B].
  - cbn [scan_from snd fst]. unfold Current; cbn [it_pos it_items].
    destruct (nth_error items i) as [e|] eqn:N; [|apply nth_error_None in N; lia].
    cbn [Next it_pos]. unfold Next; cbn [it_pos].
    replace (goto (mkIter items (At i)) (S i)) with (goto (mkIter items AtStart) (S i))
      by (unfold goto; reflexivity).
    rewrite IH by lia.
    clear - N. revert i N. induction items as [|x t IH]; intros i N.
    + destruct i; discriminate N.
    + destruct i as [|i]; cbn [nth_error] in N.
      * injection N as <-. reflexivity.
      * cbn [skipn]. rewrite <- (IH i N). reflexivity.
  - cbn [scan_from snd]. rewrite skipn_all2 by lia. reflexivity.
Qed.

Lemma scan_all it fuel : it_pos it <> Released -> length (it_items it) < fuel ->
  scan fuel it = it_items it.
Proof.
  intros R L. unfold scan, First. destruct it as [items pos]; cbn [it_pos it_items] in *.
  assert (E : forall p, goto (mkIter items p) 0 = goto (mkIter items AtStart) 0) by reflexivity.
  destruct pos; try congruence; rewrite ?E; apply (scan_from_at items fuel 0); lia.
Qed.

(** * The invariant *)
Fixpoint lins (h : list event) : list batch :=
  match h with
  | [] => []
  | ELin _ b :: r => b :: lins r
  | _ :: r => lins r
  end.

Lemma done_lins h : done h = concat (lins h).
Proof.
  induction h as [|[| | | | |] h IH]; cbn [done lins concat]; try exact IH; auto.
  rewrite IH; reflexivity.
Qed.
Lemma lins_app a b : lins (a ++ b) = lins a ++ lins b.
Proof.
  induction a as [|[| | | | |] a IH]; cbn [app lins]; try exact IH; auto. rewrite IH; reflexivity.
Qed.
Lemma seen_app a b : seen (a ++ b) = seen a ++ seen b.
Proof. apply filter_app. Qed.

Lemma snoc_cases {A} (l p q : list A) x e : l ++ [x] = p ++ e :: q ->
  (q = [] /\ l = p /\ x = e) \/ exists q', q = q' ++ [x] /\ l = p ++ e :: q'.
Proof.
  destruct q as [|y q] using rev_ind.
  - intro H. apply app_inj_tail in H as [-> ->]. left; auto.
  - intro H. right. rewrite app_comm_cons, app_assoc in H. apply app_inj_tail in H as [-> ->].
    exists q; auto.
Qed.

Lemma correct_snoc h e : correct h -> allowed h e -> correct (h ++ [e]).
Proof.
  intros C A p e' q E. apply snoc_cases in E. destruct E as [(-> & -> & ->)|(q' & -> & ->)].
  - exact A.
  - eapply C; reflexivity.
Qed.

(** a call in progress *)
Definition started (h : list event) (id : nat) (c : wcall) (p2 : list event) : Prop :=
  (exists p1, h = p1 ++ EInvoke id c :: p2) /\ no_restart p2 /\ (forall r, ~ In (EReturn id r) p2).

Definition phase (s : db) (u : option (nat * batch)) (p2 : list event) (id : nat) (c : wcall) (ps : list prim) : Prop :=
  (ps = wrapper c /\ no_effect_of id p2 /\ d_holder s <> Some id) \/
  (exists b, effect c = Some b /\ d_holder s = Some id /\ no_effect_of id p2 /\ u = Some (id, b) /\
     (ps = [PSync; PApply b] \/ ps = [PApply b] /\ d_buf s = [])) \/
  (exists b, effect c = Some b /\ d_holder s = Some id /\ In (ELin id b) p2 /\ u = None /\ ps = []).

Definition journal (s : db) (h : list event) (u : option (nat * batch)) : Prop :=
  match u with
  | None => d_disk s = lins h /\ d_buf s = [] /\ d_broken s = false
  | Some (id, b) =>
      d_disk s ++ d_buf s = lins h ++ [b] /\ length (lins h) <= length (d_disk s) /\
      allowed h (ELin id b) /\
      (d_holder s = Some id /\ d_broken s = false \/ d_holder s = None /\ d_broken s = true)
  end.

Record Inv (s : db) (h : list event) (u : option (nat * batch)) : Prop := mkInv {
  i_correct : correct h;
  i_used : forall id c, In (EInvoke id c) h -> In id (d_used s);
  i_pused : forall id ps, In (id, ps) (d_pend s) -> In id (d_used s);
  i_holder : forall id, d_holder s = Some id -> In id (d_used s);
  i_mem : d_mem s = replay (lins h);
  i_pend : forall id ps, In (id, ps) (d_pend s) -> exists c p2, started h id c p2 /\ phase s u p2 id c ps;
  i_nodup : NoDup (map fst (d_pend s));
  i_journal : journal s h u }.

Lemma started_snoc h id c p2 e : started h id c p2 -> e <> ERestart -> (forall r, e <> EReturn id r) ->
  started (h ++ [e]) id c (p2 ++ [e]).
Proof.
  intros [[p1 ->] [R T]] Ne Nr. split; [|split].
  - exists p1. rewrite <- app_assoc. reflexivity.
  - intro I. apply in_app_iff in I. destruct I as [I|[I|[]]]; [exact (R I)|congruence].
  - intros r I. apply in_app_iff in I. destruct I as [I|[I|[]]]; [exact (T r I)|exact (Nr r I)].
Qed.

Lemma phase_snoc s u p2 id c ps e : phase s u p2 id c ps -> (forall b, e <> ELin id b) ->
  phase s u (p2 ++ [e]) id c ps.
Proof.
  intros H N.
  assert (NE : no_effect_of id p2 -> no_effect_of id (p2 ++ [e])).
  { intros H1 b I. apply in_app_iff in I. destruct I as [I|[I|[]]]; [exact (H1 b I)|exact (N b I)]. }
  destruct H as [(A & B & D)|[(b & A & B & D & E & F)|(b & A & B & D & E & F)]].
  - left. auto.
  - right; left. exists b. auto 6.
  - right; right. exists b. repeat split; auto. apply in_app_iff; auto.
Qed.

Lemma lin_allowed_snoc h id b e : allowed h (ELin id b) -> e <> ERestart -> e <> EReturn id true ->
  (forall j b', e <> ELin j b') -> allowed (h ++ [e]) (ELin id b).
Proof.
  intros (p1 & c & p2 & -> & E & R & N & T & Q) Ne Nr Nl.
  exists p1, c, (p2 ++ [e]). split; [rewrite <- app_assoc; reflexivity|].
  split; [exact E|]. split; [|split; [|split]].
  - intro I. apply in_app_iff in I. destruct I as [I|[I|[]]]; [exact (R I)|congruence].
  - intros b' I. apply in_app_iff in I. destruct I as [I|[I|[]]]; [exact (N b' I)|exact (Nl _ _ I)].
  - intro I. apply in_app_iff in I. destruct I as [I|[I|[]]]; [exact (T I)|congruence].
  - intros q1 q2 H j b' I. apply snoc_cases in H. destruct H as [(-> & _)|(q' & -> & H)]; [exact I|].
    apply in_app_iff in I. destruct I as [I|[I|[]]]; [exact (Q _ _ H _ _ I)|exact (Nl _ _ I)].
Qed.

Lemma pend_in_unique (l : list (nat * list prim)) id a b : NoDup (map fst l) -> In (id, a) l -> In (id, b) l -> a = b.
Proof.
  induction l as [|[j x] l IH]; cbn [map fst In]; [tauto|].
  intros N A B. apply NoDup_cons_iff in N as [N1 N2].
  assert (F : forall y, In (id, y) l -> In id (map fst l))
    by (intros y I; apply (in_map fst) in I; exact I).
  destruct A as [A|A], B as [B|B].
  - congruence.
  - injection A as -> ->. exfalso; exact (N1 (F _ B)).
  - injection B as -> ->. exfalso; exact (N1 (F _ A)).
  - auto.
Qed.

Lemma in_advance id ps l j qs : In (j, qs) (advance id ps l) ->
  (j = id /\ qs = ps) \/ (j <> id /\ In (j, qs) l).
Proof.
  unfold advance. intro I. apply in_map_iff in I. destruct I as ([k x] & H & I). cbn [fst] in H.
  destruct (Nat.eqb_spec k id) as [->|N]; injection H as <- <-; auto.
Qed.
Lemma in_finish id l j qs : In (j, qs) (finish id l) -> j <> id /\ In (j, qs) l.
Proof.
  unfold finish. intro I. apply filter_In in I as [I H]. cbn [fst] in H.
  destruct (Nat.eqb_spec j id); [discriminate H|auto].
Qed.
Lemma nodup_advance id ps l : NoDup (map fst l) -> NoDup (map fst (advance id ps l)).
Proof.
  replace (map fst (advance id ps l)) with (map fst l); [auto|].
  unfold advance. rewrite map_map. apply map_ext. intros [k x]; cbn [fst].
  destruct (Nat.eqb_spec k id); auto.
Qed.
Lemma nodup_finish id l : NoDup (map fst l) -> NoDup (map fst (finish id l)).
Proof.
  unfold finish. induction l as [|[j x] l IH]; cbn [filter map fst]; auto.
  intro N. apply NoDup_cons_iff in N as [N1 N2]. destruct (Nat.eqb j id); cbn [negb map fst]; auto.
  constructor; auto. intro I. apply N1. apply in_map_iff in I. destruct I as (e & E & I).
  apply filter_In in I as [I _]. apply in_map_iff. exists e; auto.
Qed.

Lemma phase_other s s' u u' p2 id j c ps : j <> id ->
  (d_holder s = None \/ d_holder s = Some id) -> (d_holder s' = None \/ d_holder s' = Some id) ->
  phase s u p2 j c ps -> phase s' u' p2 j c ps.
Proof.
  intros N H H' [(A & B & D)|[(b & A & B & _)|(b & A & B & _)]].
  - left. split; [exact A|]. split; [exact B|]. destruct H' as [->| ->]; congruence.
  - destruct H as [H|H]; congruence.
  - destruct H as [H|H]; congruence.
Qed.

Lemma phase_same s s' u p2 j c ps :
  d_holder s' = d_holder s -> (d_buf s = [] -> d_buf s' = []) ->
  phase s u p2 j c ps -> phase s' u p2 j c ps.
Proof.
  intros H B0 [(A & B & D)|[(b & A & B & D & E & F)|(b & A & B & D & E & F)]].
  - left. rewrite H. auto.
  - right; left. exists b. rewrite H. repeat split; auto. destruct F as [F|[F G]]; auto.
  - right; right. exists b. rewrite H. auto 6.
Qed.

Lemma wrapper_shape c :
  (exists b, effect c = Some b /\ wrapper c = [PAppend b; PSync; PApply b]) \/
  (effect c = None /\ wrapper c = [PErr]).
Proof.
  destruct c as [k v|k|[ops|n]]; cbn; [left|left|left|right]; eauto.
Qed.

Lemma read_allowed_get s h u k : Inv s h u -> allowed h (EGet k (lookup k (d_mem s))).
Proof.
  intro I. cbn [allowed]. rewrite (i_mem _ _ _ I), (proj2 (replay_spec _)), done_lins.
  apply value_after_val.
Qed.

Lemma read_allowed_iter s h u rg : Inv s h u -> allowed h (EIter rg (NewIterator (d_mem s) rg)).
Proof.
  intro I. cbn [allowed]. unfold NewIterator; cbn [it_items]. rewrite (i_mem _ _ _ I).
  destruct (replay_spec (lins h)) as [S L]. split.
  - intros i j a b. apply sorted_nth. apply sorted_filter. exact S.
  - intros k v. rewrite filter_In. cbn [fst]. rewrite in_slice_range, (lookup_In _ S), L, done_lins.
    split; intros [H1 H2]; split; auto.
    + rewrite <- H1. apply value_after_val.
    + apply value_after_eq in H2. auto.
Qed.

(** An event that changes nothing in the store but is appended to the history. *)
Lemma Inv_event s h u e : Inv s h u -> allowed h e ->
  (forall id c, e <> EInvoke id c) -> (forall id r, e <> EReturn id r) -> e <> ERestart ->
  (forall id b, e <> ELin id b) -> Inv s (h ++ [e]) u.
Proof.
  intros [C U P HU M K N J] A E1 E2 E3 E4.
  assert (L : lins (h ++ [e]) = lins h).
  { rewrite lins_app. destruct e; cbn [lins]; rewrite ?app_nil_r; auto. exfalso; eapply E4; reflexivity. }
  split; auto.
  - apply correct_snoc; assumption.
  - intros id c I. apply in_app_iff in I. destruct I as [I|[I|[]]]; [eauto|exfalso; eapply E1; eauto].
  - rewrite L. exact M.
  - intros id ps I. destruct (K id ps I) as (c & p2 & S & F). exists c, (p2 ++ [e]). split.
    + apply started_snoc; auto.
    + apply phase_snoc; auto.
  - unfold journal in *. destruct u as [[id b]|]; rewrite L; [|exact J].
    destruct J as (J1 & J2 & J3 & J4). repeat split; auto. apply lin_allowed_snoc; auto.
Qed.

(** What is known of a call from what is left of it. *)
Lemma started_lin h id c p2 b : started h id c p2 -> effect c = Some b -> no_effect_of id p2 ->
  allowed h (ELin id b).
Proof.
  intros [[p1 ->] [R T]] E N. exists p1, c, p2. repeat split; auto.
  intros q1 q2 -> . exfalso. apply (T false). apply in_app_iff. right; left; reflexivity.
Qed.
Lemma started_fail h id c p2 : started h id c p2 -> no_effect_of id p2 -> allowed h (EReturn id false).
Proof. intros [[p1 ->] [R T]] N. exists p1, c, p2. auto. Qed.

Lemma phase_append s u p2 id c b ps : phase s u p2 id c (PAppend b :: ps) ->
  effect c = Some b /\ ps = [PSync; PApply b] /\ no_effect_of id p2 /\ d_holder s <> Some id.
Proof.
  intros [(A & B & D)|[(b' & _ & _ & _ & _ & [F|[F _]])|(b' & _ & _ & _ & _ & F)]]; try discriminate F.
  destruct (wrapper_shape c) as [(b' & E & W)|[E W]]; rewrite W in A; [|discriminate A].
  injection A as -> ->. auto.
Qed.
Lemma phase_error s u p2 id c ps : phase s u p2 id c (PErr :: ps) ->
  effect c = None /\ no_effect_of id p2 /\ d_holder s <> Some id.
Proof.
  intros [(A & B & D)|[(b' & _ & _ & _ & _ & [F|[F _]])|(b' & _ & _ & _ & _ & F)]]; try discriminate F.
  destruct (wrapper_shape c) as [(b' & E & W)|[E W]]; rewrite W in A; [discriminate A|]. auto.
Qed.
Lemma phase_sync s u p2 id c ps : phase s u p2 id c (PSync :: ps) ->
  exists b, effect c = Some b /\ d_holder s = Some id /\ no_effect_of id p2 /\ u = Some (id, b) /\ ps = [PApply b].
Proof.
  intros [(A & B & D)|[(b' & E & H & N & U & [F|[F _]])|(b' & _ & _ & _ & _ & F)]]; try discriminate F.
  - destruct (wrapper_shape c) as [(b' & E & W)|[E W]]; rewrite W in A; discriminate A.
  - injection F as ->. exists b'. auto.
Qed.
Lemma phase_apply s u p2 id c b ps : phase s u p2 id c (PApply b :: ps) ->
  effect c = Some b /\ d_holder s = Some id /\ no_effect_of id p2 /\ u = Some (id, b) /\ ps = [] /\ d_buf s = [].
Proof.
  intros [(A & B & D)|[(b' & E & H & N & U & [F|[F G]])|(b' & _ & _ & _ & _ & F)]]; try discriminate F.
  - destruct (wrapper_shape c) as [(b' & E & W)|[E W]]; rewrite W in A; discriminate A.
  - injection F as -> ->. auto 7.
Qed.
Lemma phase_return s u p2 id c : phase s u p2 id c [] ->
  exists b, effect c = Some b /\ d_holder s = Some id /\ In (ELin id b) p2 /\ u = None.
Proof.
  intros [(A & B & D)|[(b' & E & H & N & U & [F|[F G]])|(b' & E & H & L & U & F)]]; try discriminate F.
  - destruct (wrapper_shape c) as [(b' & E & W)|[E W]]; rewrite W in A; discriminate A.
  - exists b'; auto.
Qed.

Lemma lins_snoc_ret h id r : lins (h ++ [EReturn id r]) = lins h.
Proof. rewrite lins_app; cbn [lins]; apply app_nil_r. Qed.

Lemma used_snoc_ret s h id r : (forall j c, In (EInvoke j c) h -> In j (d_used s)) ->
  forall j c, In (EInvoke j c) (h ++ [EReturn id r]) -> In j (d_used s).
Proof. intros U j c X. apply in_app_iff in X. destruct X as [X|[X|[]]]; [eauto|discriminate X]. Qed.

(** A call that fails before it has written anything. *)
Lemma Inv_fail s h u id ps c p2 : Inv s h u -> In (id, ps) (d_pend s) -> started h id c p2 ->
  no_effect_of id p2 -> d_holder s <> Some id ->
  Inv (mkdb (d_disk s) (d_buf s) (d_mem s) (d_broken s) (finish id (d_pend s)) (d_holder s) (d_used s))
      (h ++ [EReturn id false]) u.
Proof.
  intros [C U P HU M K N J] Ip S Ne Hh.
  split; cbn [d_disk d_buf d_mem d_broken d_pend d_holder d_used].
  - apply correct_snoc; [exact C|]. eapply started_fail; eauto.
  - apply used_snoc_ret. exact U.
  - intros j qs X. apply in_finish in X as [_ X]. eauto.
  - exact HU.
  - rewrite lins_snoc_ret. exact M.
  - intros j qs X. apply in_finish in X as [Nj X]. destruct (K j qs X) as (c' & q2 & S' & F).
    exists c', (q2 ++ [EReturn id false]). split.
    + apply started_snoc; [exact S'|discriminate|]. intros r E. congruence.
    + apply phase_snoc; [|discriminate]. eapply phase_same; [| |exact F]; cbn; auto.
  - apply nodup_finish. exact N.
  - unfold journal in *. destruct u as [[j b]|]; rewrite lins_snoc_ret; cbn [d_disk d_buf d_broken d_holder]; [|exact J].
    destruct J as (J1 & J2 & J3 & J4). repeat split; auto. apply lin_allowed_snoc; auto; discriminate.
Qed.

(** Every step keeps the invariant. *)
Lemma Inv_step s h u tr s' : Inv s h u -> step s tr s' ->
  exists h' u', seen h' = tr /\ Inv s' (h ++ h') u'.
Proof.
  intros I St. destruct St as [s id c Fr|s id b ps Ip Hh Hb|s id b ps Ip|s id ps Ip|s id ps Ip|s id b ps Ip
                              |s id Ip|s id ps Ip|s k|s rg|s n|s n].
  - (* invoke *)
    exists [EInvoke id c], u. split; [reflexivity|]. destruct I as [C U P HU M K N J].
    assert (L : lins (h ++ [EInvoke id c]) = lins h) by (rewrite lins_app; cbn [lins]; apply app_nil_r).
    split; cbn [d_disk d_buf d_mem d_broken d_pend d_holder d_used].
    + apply correct_snoc; [exact C|]. cbn [allowed]. intros c' X. apply Fr. eauto.
    + intros j c' X. apply in_app_iff in X. destruct X as [X|[X|[]]]; [right; eauto|].
      injection X as -> ->. left; reflexivity.
    + intros j ps [X|X]; [injection X as -> _; left; reflexivity|right; eauto].
    + intros j X. right. auto.
    + rewrite L; exact M.
    + intros j ps [X|X].
      * injection X as <- <-. exists c, []. split.
        { split; [exists h; reflexivity|]. split; intros ?; [|intros ?]; assumption. }
        left. split; [reflexivity|]. split; [intros b []|]. cbn [d_holder]. intro Hh. apply Fr. auto.
      * destruct (K j ps X) as (c' & p2 & S & F). exists c', (p2 ++ [EInvoke id c]). split.
        { apply started_snoc; [exact S|discriminate|discriminate]. }
        apply phase_snoc; [|discriminate]. eapply phase_same; [| |exact F]; cbn; auto.
    + cbn [map fst]. constructor; [|exact N]. intro X. apply in_map_iff in X.
      destruct X as ([j qs] & E & X). cbn [fst] in E; subst j. apply Fr. eauto.
    + unfold journal in *. destruct u as [[j b]|]; rewrite L; cbn [d_disk d_buf d_broken d_holder]; [|exact J].
      destruct J as (J1 & J2 & J3 & J4). repeat split; auto. apply lin_allowed_snoc; auto; discriminate.
  - (* append *)
    destruct I as [C U P HU M K N J]. destruct (K _ _ Ip) as (c & p2 & S & F).
    apply phase_append in F as (E & -> & Ne & _).
    exists [], (Some (id, b)). split; [reflexivity|]. rewrite app_nil_r.
    destruct u as [[j b']|].
    { exfalso. destruct J as (_ & _ & _ & [[J _]|[_ J]]); congruence. }
    destruct J as (J1 & J2 & J3).
    split; cbn [d_disk d_buf d_mem d_broken d_pend d_holder d_used]; auto.
    + intros j qs X. apply in_advance in X as [[-> _]|[_ X]]; eauto.
    + intros j X. injection X as <-. eauto.
    + intros j qs X. apply in_advance in X as [[-> ->]|[Nj X]].
      * exists c, p2. split; [exact S|]. right; left. exists b. cbn [d_holder]. auto 8.
      * destruct (K j qs X) as (c' & q2 & S' & F). exists c', q2. split; [exact S'|].
        eapply (phase_other s); [exact Nj|left; exact Hh|right; reflexivity|exact F].
    + apply nodup_advance. exact N.
    + cbn [journal d_disk d_buf d_broken d_holder]. rewrite J1, J2. cbn [app]. repeat split; auto.
      eapply started_lin; eauto.
  - (* append fails *)
    destruct (i_pend _ _ _ I _ _ Ip) as (c & p2 & S & F). apply phase_append in F as (_ & _ & Ne & Hn).
    exists [EReturn id false], u. split; [reflexivity|]. eapply Inv_fail; eauto.
  - (* sync *)
    destruct I as [C U P HU M K N J]. destruct (K _ _ Ip) as (c & p2 & S & F).
    apply phase_sync in F as (b & E & Hh & Ne & -> & ->).
    exists [], (Some (id, b)). split; [reflexivity|]. rewrite app_nil_r.
    destruct J as (J1 & J2 & J3 & J4).
    split; cbn [d_disk d_buf d_mem d_broken d_pend d_holder d_used]; auto.
    + intros j qs X. apply in_advance in X as [[-> _]|[_ X]]; eauto.
    + intros j qs X. apply in_advance in X as [[-> ->]|[Nj X]].
      * exists c, p2. split; [exact S|]. right; left. exists b. cbn [d_holder d_buf]. auto 8.
      * destruct (K j qs X) as (c' & q2 & S' & F). exists c', q2. split; [exact S'|].
        eapply (phase_other s); [exact Nj|right; exact Hh|right; exact Hh|exact F].
    + apply nodup_advance. exact N.
    + cbn [journal d_disk d_buf d_broken d_holder]. rewrite J1, app_nil_r. repeat split; auto.
      rewrite app_length. lia.
  - (* sync fails *)
    destruct I as [C U P HU M K N J]. destruct (K _ _ Ip) as (c & p2 & S & F).
    apply phase_sync in F as (b & E & Hh & Ne & -> & ->).
    exists [EReturn id false], (Some (id, b)). split; [reflexivity|].
    destruct J as (J1 & J2 & J3 & J4).
    assert (RH : release id (d_holder s) = None) by (rewrite Hh; cbn [release]; rewrite Nat.eqb_refl; reflexivity).
    split; cbn [d_disk d_buf d_mem d_broken d_pend d_holder d_used]; rewrite ?RH.
    + apply correct_snoc; [exact C|]. eapply started_fail; eauto.
    + apply used_snoc_ret. exact U.
    + intros j qs X. apply in_finish in X as [_ X]. eauto.
    + intros j X; discriminate X.
    + rewrite lins_snoc_ret. exact M.
    + intros j qs X. apply in_finish in X as [Nj X]. destruct (K j qs X) as (c' & q2 & S' & F).
      exists c', (q2 ++ [EReturn id false]). split.
      * apply started_snoc; [exact S'|discriminate|]. intros r E'. congruence.
      * apply phase_snoc; [|discriminate].
        eapply (phase_other s); [exact Nj|right; exact Hh|left; reflexivity|exact F].
    + apply nodup_finish. exact N.
    + cbn [journal d_disk d_buf d_broken d_holder]. rewrite lins_snoc_ret. repeat split; auto.
      apply lin_allowed_snoc; auto; discriminate.
  - (* apply *)
    destruct I as [C U P HU M K N J]. destruct (K _ _ Ip) as (c & p2 & S & F).
    apply phase_apply in F as (E & Hh & Ne & -> & -> & Hbuf).
    exists [ELin id b], None. split; [reflexivity|].
    destruct J as (J1 & J2 & J3 & J4).
    assert (L : lins (h ++ [ELin id b]) = lins h ++ [b]) by (rewrite lins_app; reflexivity).
    split; cbn [d_disk d_buf d_mem d_broken d_pend d_holder d_used]; auto.
    + apply correct_snoc; assumption.
    + intros j c' X. apply in_app_iff in X. destruct X as [X|[X|[]]]; [eauto|discriminate X].
    + intros j qs X. apply in_advance in X as [[-> _]|[_ X]]; eauto.
    + rewrite L, replay_snoc, M. reflexivity.
    + intros j qs X. apply in_advance in X as [[-> ->]|[Nj X]].
      * exists c, (p2 ++ [ELin id b]). split; [apply started_snoc; [exact S|discriminate|discriminate]|].
        right; right. exists b. cbn [d_holder]. repeat split; auto. apply in_app_iff; right; left; reflexivity.
      * destruct (K j qs X) as (c' & q2 & S' & F). exists c', (q2 ++ [ELin id b]).
        split; [apply started_snoc; [exact S'|discriminate|discriminate]|].
        apply phase_snoc; [|intros b' E'; congruence].
        eapply (phase_other s); [exact Nj|right; exact Hh|right; exact Hh|exact F].
    + apply nodup_advance. exact N.
    + cbn [journal d_disk d_buf d_broken d_holder]. rewrite L. rewrite Hbuf, app_nil_r in J1.
      repeat split; auto. destruct J4 as [[_ J4]|[J4 _]]; [exact J4|congruence].
  - (* return *)
    destruct I as [C U P HU M K N J]. destruct (K _ _ Ip) as (c & p2 & S & F).
    apply phase_return in F as (b & E & Hh & Li & ->).
    exists [EReturn id true], None. split; [reflexivity|].
    assert (RH : release id (d_holder s) = None) by (rewrite Hh; cbn [release]; rewrite Nat.eqb_refl; reflexivity).
    split; cbn [d_disk d_buf d_mem d_broken d_pend d_holder d_used]; rewrite ?RH.
    + apply correct_snoc; [exact C|]. destruct S as [[p1 ->] [R T]]. exists p1, c, p2, b. auto.
    + apply used_snoc_ret. exact U.
    + intros j qs X. apply in_finish in X as [_ X]. eauto.
    + intros j X; discriminate X.
    + rewrite lins_snoc_ret. exact M.
    + intros j qs X. apply in_finish in X as [Nj X]. destruct (K j qs X) as (c' & q2 & S' & F).
      exists c', (q2 ++ [EReturn id true]). split.
      * apply started_snoc; [exact S'|discriminate|]. intros r E'. congruence.
      * apply phase_snoc; [|discriminate].
        eapply (phase_other s); [exact Nj|right; exact Hh|left; reflexivity|exact F].
    + apply nodup_finish. exact N.
    + unfold journal in *. rewrite lins_snoc_ret. exact J.
  - (* error *)
    destruct (i_pend _ _ _ I _ _ Ip) as (c & p2 & S & F). apply phase_error in F as (_ & Ne & Hn).
    exists [EReturn id false], u. split; [reflexivity|]. eapply Inv_fail; eauto.
  - (* get *)
    exists [EGet k (lookup k (d_mem s))], u. split; [reflexivity|].
    apply Inv_event; auto; try discriminate. eapply read_allowed_get; eauto.
  - (* iterator *)
    exists [EIter rg (NewIterator (d_mem s) rg)], u. split; [reflexivity|].
    apply Inv_event; auto; try discriminate. eapply read_allowed_iter; eauto.
  - (* flush *)
    exists [], u. split; [reflexivity|]. rewrite app_nil_r. destruct I as [C U P HU M K N J].
    split; cbn [d_disk d_buf d_mem d_broken d_pend d_holder d_used]; auto.
    + intros j qs X. destruct (K j qs X) as (c' & q2 & S' & F). exists c', q2. split; [exact S'|].
      eapply phase_same; [| |exact F]; cbn [d_holder d_buf]; [reflexivity|]. intros ->. apply skipn_nil.
    + unfold journal in *. destruct u as [[j b]|]; cbn [d_disk d_buf d_broken d_holder].
      * destruct J as (J1 & J2 & J3 & J4). rewrite <- app_assoc, firstn_skipn. repeat split; auto.
        rewrite app_length. lia.
      * destruct J as (J1 & J2 & J3). rewrite J2, firstn_nil, skipn_nil, app_nil_r. auto.
  - (* restart *)
    destruct I as [C U P HU M K N J].
    assert (R : forall h', lins h' = d_disk s ++ firstn n (d_buf s) -> correct h' ->
              (forall j c, In (EInvoke j c) h' -> In j (d_used s)) ->
              Inv (mkdb (d_disk s ++ firstn n (d_buf s)) [] (replay (d_disk s ++ firstn n (d_buf s)))
                        false [] None (d_used s)) (h' ++ [ERestart]) None).
    { intros h' L C' U'. assert (L2 : lins (h' ++ [ERestart]) = lins h') by (rewrite lins_app; cbn [lins]; apply app_nil_r).
      split; cbn [d_disk d_buf d_mem d_broken d_pend d_holder d_used].
      - apply correct_snoc; [exact C'|exact Logic.I].
      - intros j c X. apply in_app_iff in X. destruct X as [X|[X|[]]]; [eauto|discriminate X].
      - intros j qs [].
      - intros j X; discriminate X.
      - rewrite L2, L. reflexivity.
      - intros j qs [].
      - constructor.
      - cbn [journal d_disk d_buf d_broken]. rewrite L2, L. auto. }
    destruct u as [[id b]|].
    + destruct J as (J1 & J2 & J3 & J4).
      assert (D : d_disk s ++ firstn n (d_buf s) = lins h \/ d_disk s ++ firstn n (d_buf s) = lins h ++ [b]).
      { assert (E : exists t, (d_disk s ++ firstn n (d_buf s)) ++ t = lins h ++ [b]).
        { exists (skipn n (d_buf s)). rewrite <- app_assoc, firstn_skipn. exact J1. }
        destruct E as [t E]. destruct t as [|x t].
        - right. rewrite app_nil_r in E. exact E.
        - left. destruct t as [|y t] using rev_ind.
          + apply app_inj_tail in E as [E _]. exact E.
          + exfalso. apply (f_equal (@length batch)) in E. repeat rewrite app_length in E. cbn [length] in E.
            rewrite app_length in E. cbn [length] in E. lia. }
      destruct D as [D|D].
      * exists [ERestart], None. split; [reflexivity|]. apply R; auto.
      * exists [ELin id b; ERestart], None. split; [reflexivity|].
        replace (h ++ [ELin id b; ERestart]) with ((h ++ [ELin id b]) ++ [ERestart]) by (rewrite <- app_assoc; reflexivity).
        apply R.
        -- rewrite lins_app. cbn [lins]. auto.
        -- apply correct_snoc; assumption.
        -- intros j c X. apply in_app_iff in X. destruct X as [X|[X|[]]]; [eauto|discriminate X].
    + destruct J as (J1 & J2 & J3). exists [ERestart], None. split; [reflexivity|]. apply R; auto.
      rewrite J2, firstn_nil, app_nil_r. auto.
Qed.

Lemma Inv_init : Inv empty_db [] None.
Proof.
  split; cbn; auto; try (intros; contradiction); try discriminate.
  - intros p e q E. destruct p; discriminate E.
  - constructor.
Qed.

Lemma Inv_run tr s : run empty_db tr s -> exists h u, seen h = tr /\ Inv s h u.
Proof.
  intro R. remember empty_db as s0 eqn:E. induction R as [s|s tr s' e s'' R IH St]; subst.
  - exists [], None. split; [reflexivity|apply Inv_init].
  - destruct (IH eq_refl) as (h & u & Hs & I). destruct (Inv_step _ _ _ _ _ I St) as (h' & u' & Hs' & I').
    exists (h ++ h'), u'. split; [rewrite seen_app, Hs, Hs'; reflexivity|exact I'].
Qed.
