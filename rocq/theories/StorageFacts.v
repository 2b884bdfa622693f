(** Facts about key ranges and file writing. *)
From Coq Require Import List NArith ZArith Lia Bool Arith Relations.
From Verif Require Import Base Storage.
Import ListNotations.

(** * Lexicographic order of keys (Go's [bytes.Compare]), specification *)
Inductive lex_lt : bytes -> bytes -> Prop :=
| lex_nil y b : lex_lt [] (y :: b)
| lex_head x y a b : (Byte.to_N x < Byte.to_N y)%N -> lex_lt (x :: a) (y :: b)
| lex_tail x a b : lex_lt a b -> lex_lt (x :: a) (x :: b).
Definition lex_le a b := a = b \/ lex_lt a b.

(** A key belongs to a range: start included, limit excluded, nil = no limit. *)
Definition in_range (r : Range) (k : bytes) : Prop :=
  lex_le (rg_start r) k /\
  match rg_limit r with None => True | Some l => lex_lt k l end.
Definition has_prefix (p k : bytes) : Prop := exists s, k = p ++ s.

Lemma lex_lt_inv x a y b : lex_lt (x :: a) (y :: b) ->
  (Byte.to_N x < Byte.to_N y)%N \/ (x = y /\ lex_lt a b).
Proof. intro H; inversion H; subst; auto. Qed.

Lemma lex_irrefl a : ~ lex_lt a a.
Proof. induction a; intro H; [inversion H|]. apply lex_lt_inv in H as [H|[_ H]]; [lia|auto]. Qed.

Lemma lex_trans a b c : lex_lt a b -> lex_lt b c -> lex_lt a c.
Proof.
  intro H. revert c. induction H; intros c Hc; inversion Hc; subst;
    first [apply lex_nil | apply lex_head; lia | apply lex_tail; auto].
Qed.

Lemma to_N_inj x y : Byte.to_N x = Byte.to_N y -> x = y.
Proof.
  intro H. assert (K : Some x = Some y) by (rewrite <- (Byte.of_to_N x), <- (Byte.of_to_N y), H; reflexivity).
  congruence.
Qed.

Lemma lex_total a b : lex_lt a b \/ a = b \/ lex_lt b a.
Proof.
  revert b; induction a as [|x a IH]; intros [|y b]; auto using lex_nil.
  destruct (N.lt_trichotomy (Byte.to_N x) (Byte.to_N y)) as [H|[H|H]].
  - left; constructor; auto.
  - apply to_N_inj in H; subst y. destruct (IH b) as [K|[K|K]]; subst; auto using lex_tail.
  - right; right; constructor; auto.
Qed.

Lemma lex_le_prefix p s : lex_le p (p ++ s).
Proof.
  induction p; simpl.
  - destruct s; [left; auto|right; constructor].
  - destruct IHp as [H|H]; [left; f_equal; auto|right; apply lex_tail; auto].
Qed.

Lemma lex_lt_app p a b : lex_lt a b -> lex_lt (p ++ a) (p ++ b).
Proof. intro; induction p; simpl; auto using lex_tail. Qed.

(** The two shapes of [IncrementKey]'s argument. *)
Lemma incr_shape p :
  (exists q c n, p = q ++ c :: repeat xff n /\ (Byte.to_N c < 255)%N
                 /\ IncrementKey p = Some (q ++ [b8 (Byte.to_N c + 1)]))
  \/ (p = repeat xff (length p) /\ IncrementKey p = None).
Proof.
  unfold IncrementKey.
  assert (G : forall n, n <= length p ->
    (exists q c m, firstn n p = q ++ c :: repeat xff m /\ (Byte.to_N c < 255)%N
                 /\ IncrementKey_loop p n = Some (q ++ [b8 (Byte.to_N c + 1)]))
    \/ (firstn n p = repeat xff n /\ IncrementKey_loop p n = None)).
  { induction n as [|n IH]; intro L; [right; auto|].
    cbn [IncrementKey_loop].
    destruct (nth_error p n) as [c|] eqn:E; [|apply nth_error_None in E; lia].
    assert (F : firstn (S n) p = firstn n p ++ [c]).
    { clear IH L. revert n E. induction p as [|x p IH]; intros [|n] E; simpl in *; try congruence.
      f_equal. apply IH; auto. }
    destruct (N.ltb_spec (Byte.to_N c) 255) as [Hc|Hc].
    - left. exists (firstn n p), c, 0. auto.
    - assert (c = xff).
      { apply to_N_inj. pose proof (Byte.to_N_bounded c). change (Byte.to_N xff) with 255%N. lia. }
      subst c. destruct IH as [(q & c & m & A & B & D)|[A B]]; [lia| |].
      + left. exists q, c, (S m). rewrite F, A, <- app_assoc. simpl.
        replace (repeat xff m ++ [xff]) with (xff :: repeat xff m) by apply repeat_cons. auto.
      + right. rewrite F, A. split; auto. simpl. symmetry. apply repeat_cons. }
  destruct (G (length p) (le_n _)) as [(q & c & m & A & B & D)|[A B]]; rewrite firstn_all in A.
  - left; eauto 8.
  - right; auto.
Qed.

Lemma to_N_succ c : (Byte.to_N c < 255)%N -> Byte.to_N (b8 (Byte.to_N c + 1)) = (Byte.to_N c + 1)%N.
Proof. intro. rewrite to_N_b8. apply N.mod_small. lia. Qed.

Lemma ff_max n k : lex_le (repeat xff n) k -> has_prefix (repeat xff n) k.
Proof.
  revert k; induction n; intros k H; [exists k; auto|].
  destruct k as [|y k]; destruct H as [H|H]; try (inversion H; fail).
  - exists []. rewrite app_nil_r. auto.
  - simpl in H. apply lex_lt_inv in H as [H|[<- H]].
    + pose proof (Byte.to_N_bounded y). change (Byte.to_N xff) with 255%N in H. lia.
    + destruct (IHn k (or_intror H)) as [s ->]. exists s; auto.
Qed.

Lemma lex_le_tail x a b : lex_le (x :: a) (x :: b) -> lex_le a b.
Proof.
  intros [H|H]; [left; congruence|]. apply lex_lt_inv in H as [H|[_ H]]; [lia|right; auto].
Qed.

Lemma range_prefix q c n k : (Byte.to_N c < 255)%N ->
  lex_le (q ++ c :: repeat xff n) k -> lex_lt k (q ++ [b8 (Byte.to_N c + 1)]) ->
  has_prefix (q ++ c :: repeat xff n) k.
Proof.
  intro Hc. revert k. induction q as [|x q IH]; intros k H1 H2; simpl in *.
  - destruct k as [|y k]; [destruct H1 as [H1|H1]; inversion H1|].
    apply lex_lt_inv in H2. rewrite to_N_succ in H2 by auto.
    destruct H2 as [H2|[_ H2]]; [|inversion H2].
    assert (c = y) as <-.
    { destruct H1 as [H1|H1]; [congruence|]. apply lex_lt_inv in H1 as [H1|[H1 _]]; auto.
      apply to_N_inj; lia. }
    destruct (ff_max n k (lex_le_tail _ _ _ H1)) as [s ->]. exists s; auto.
  - destruct k as [|y k]; [destruct H1 as [H1|H1]; inversion H1|].
    assert (x = y) as <-.
    { destruct H1 as [H1|H1]; [congruence|]. apply lex_lt_inv in H1 as [H1|[H1 _]]; auto.
      apply lex_lt_inv in H2 as [H2|[H2 _]]; auto. lia. }
    apply lex_le_tail in H1. apply lex_lt_inv in H2 as [H2|[_ H2]]; [lia|].
    destruct (IH k H1 H2) as [s ->]. exists s; auto.
Qed.

(** * File writing *)
Notation wsteps name buf := (clos_refl_trans _ (wstep name buf)).

(** What one call has done to the file system at any of its control points,
    if nothing else touches the path. *)
Definition wdone (name buf : bytes) (f0 : fs) (s : wpc * fs) : Prop :=
  (forall q, q <> name -> snd s q = f0 q) /\
  match f0 name with
  | Some v => snd s = f0 /\ (fst s = WStat \/ fst s = WReturned false)
  | None =>
      match fst s with
      | WStat | WOpen => snd s name = None
      | WWriting n => n <= length buf /\ snd s name = Some (firstn n buf)
      | WReturned true => snd s name = Some buf
      | WReturned false => snd s name = None \/ exists n, snd s name = Some (firstn n buf)
      end
  end.

Lemma fs_set_same f p v : fs_set f p v p = v.
Proof. unfold fs_set. rewrite beq_refl. reflexivity. Qed.
Lemma fs_set_other f p v q : q <> p -> fs_set f p v q = f q.
Proof. intro H. unfold fs_set. apply beq_neq in H. rewrite H. reflexivity. Qed.

Lemma wdone_step name buf f0 s s' : wdone name buf f0 s -> wstep name buf s s' -> wdone name buf f0 s'.
Proof.
  intros [A B] W. unfold wdone. destruct W; simpl in *; (split; [intros q Hq; try rewrite fs_set_other by auto; auto|]).
  all: destruct (f0 name) eqn:E; [destruct B as [-> [B|B]]; try discriminate B; auto|]; try congruence; try tauto.
  - rewrite fs_set_same. split; [lia|reflexivity].
  - rewrite fs_set_same. split; [lia|reflexivity].
  - destruct B as [_ B]; eauto.
  - destruct B as [_ B]. rewrite B, firstn_all. reflexivity.
Qed.
