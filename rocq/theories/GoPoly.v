(** The value of straight-line code as a polynomial of its inputs and of its
    carries: a verified symbolic executor for the programs of GoInt.v. *)
From Coq Require Import List ZArith NArith Lia Bool Arith String.
From Verif Require Import GoInt.
Import ListNotations.
Local Open Scope Z_scope.

(** A monomial is the sorted list of its variables, a polynomial a list of
    monomials with coefficients.  (The proofs do not depend on sortedness.) *)
(** no line of its own in /repo: verified symbolic execution of that code *)
Definition mono := list N.
(** no line of its own in /repo: verified symbolic execution of that code *)
Definition poly := list (mono * Z).

(** no line of its own in /repo: verified symbolic execution of that code *)
Fixpoint mono_cmp (a b : mono) : comparison :=
  match a, b with
  | [], [] => Eq
  | [], _ => Lt
  | _, [] => Gt
  | x :: a', y :: b' => match N.compare x y with Eq => mono_cmp a' b' | c => c end
  end.
(** no line of its own in /repo: verified symbolic execution of that code *)
Fixpoint mono_mul (a : mono) : mono -> mono :=
  fix go b :=
    match a, b with
    | [], _ => b
    | _, [] => a
    | x :: a', y :: b' => if N.leb x y then x :: mono_mul a' b else y :: go b'
    end.
(** no line of its own in /repo: verified symbolic execution of that code *)
Fixpoint padd (p : poly) : poly -> poly :=
  fix go q :=
    match p, q with
    | [], _ => q
    | _, [] => p
    | (m1, c1) :: p', (m2, c2) :: q' =>
        match mono_cmp m1 m2 with
        | Lt => (m1, c1) :: padd p' q
        | Gt => (m2, c2) :: go q'
        | Eq => if Z.eqb (c1 + c2) 0 then padd p' q' else (m1, c1 + c2) :: padd p' q'
        end
    end.
(** no line of its own in /repo: verified symbolic execution of that code *)
Definition pscale (c : Z) (p : poly) : poly := if Z.eqb c 0 then [] else map (fun t => (fst t, c * snd t)) p.
(** no line of its own in /repo: verified symbolic execution of that code *)
Definition pmulm (m : mono) (c : Z) (p : poly) : poly :=
  fold_left (fun acc t => padd acc [(mono_mul m (fst t), c * snd t)]) p [].
(** no line of its own in /repo: verified symbolic execution of that code *)
Definition pmul (p q : poly) : poly := fold_left (fun acc t => padd acc (pmulm (fst t) (snd t) q)) p [].
(** no line of its own in /repo: verified symbolic execution of that code *)
Definition pconst (c : Z) : poly := if Z.eqb c 0 then [] else [([], c)].

Section Den.
  Variable r : N -> Z.
  (** no line of its own in /repo: verified symbolic execution of that code *)
  Definition mden (m : mono) : Z := fold_right (fun x a => r x * a) 1 m.
  (** no line of its own in /repo: verified symbolic execution of that code *)
  Definition pden (p : poly) : Z := fold_right (fun t a => snd t * mden (fst t) + a) 0 p.

  Lemma mono_cmp_eq a : forall b, mono_cmp a b = Eq -> a = b.
  Proof.
    induction a as [|x a IH]; intros [|y b] H; cbn in H; try discriminate H; auto.
    destruct (N.compare_spec x y); try discriminate H. subst. f_equal. auto.
  Qed.
  Lemma mono_mul_den a : forall b, mden (mono_mul a b) = mden a * mden b.
  Proof.
    induction a as [|x a IH]; intro b.
    - destruct b; cbn [mono_mul mden fold_right]; ring.
    - induction b as [|y b IHb].
      + cbn [mono_mul mden fold_right]. ring.
      + cbn [mono_mul]. destruct (N.leb x y).
        * cbn [mden fold_right]. fold (mden (mono_mul a (y :: b))). rewrite IH. cbn [mden fold_right].
          fold (mden a). fold (mden b). ring.
        * cbn [mden fold_right].
          match goal with |- _ * fold_right _ _ ?t = _ => change t with (mono_mul (x :: a) b) end.
          fold (mden (mono_mul (x :: a) b)). rewrite IHb. cbn [mden fold_right]. fold (mden a). fold (mden b). ring.
  Qed.
  Lemma padd_den p : forall q, pden (padd p q) = pden p + pden q.
  Proof.
    induction p as [|[m1 c1] p IH]; intro q.
    - destruct q; cbn [padd pden fold_right]; ring.
    - induction q as [|[m2 c2] q IHq].
      + cbn [padd pden fold_right]. ring.
      + cbn [padd]. destruct (mono_cmp m1 m2) eqn:E.
        * apply mono_cmp_eq in E. subst m2. destruct (Z.eqb_spec (c1 + c2) 0) as [Z0|].
          -- rewrite IH. cbn [pden fold_right fst snd]. fold (pden p). fold (pden q).
             replace c2 with (- c1) by lia. ring.
          -- cbn [pden fold_right fst snd]. fold (pden (padd p q)). rewrite IH. fold (pden p). fold (pden q). ring.
        * cbn [pden fold_right fst snd]. fold (pden (padd p ((m2, c2) :: q))). rewrite IH. cbn [pden fold_right fst snd].
          fold (pden p). fold (pden q). ring.
        * cbn [pden fold_right fst snd].
          match goal with |- _ + fold_right _ _ ?t = _ => change t with (padd ((m1, c1) :: p) q) end.
          fold (pden (padd ((m1, c1) :: p) q)). rewrite IHq. cbn [pden fold_right fst snd]. fold (pden p). fold (pden q). ring.
  Qed.
  Lemma pscale_den c p : pden (pscale c p) = c * pden p.
  Proof.
    unfold pscale. destruct (Z.eqb_spec c 0) as [->|]; [reflexivity|].
    induction p as [|[m a] p IH]; cbn [map pden fold_right fst snd]; [ring|].
    fold (pden (map (fun t : mono * Z => (fst t, c * snd t)) p)). rewrite IH. fold (pden p). ring.
  Qed.
  Lemma pmulm_den m c p : pden (pmulm m c p) = c * mden m * pden p.
  Proof.
    unfold pmulm. assert (G : forall acc, pden (fold_left (fun acc t => padd acc [(mono_mul m (fst t), c * snd t)]) p acc)
                              = pden acc + c * mden m * pden p).
    { induction p as [|[m2 c2] p IH]; intro acc; cbn [fold_left].
      - cbn. ring.
      - rewrite IH, padd_den. cbn [pden fold_right fst snd]. rewrite mono_mul_den. fold (pden p). ring. }
    rewrite G. cbn. ring.
  Qed.
  Lemma pmul_den p q : pden (pmul p q) = pden p * pden q.
  Proof.
    unfold pmul. assert (G : forall acc, pden (fold_left (fun acc t => padd acc (pmulm (fst t) (snd t) q)) p acc)
                              = pden acc + pden p * pden q).
    { induction p as [|[m2 c2] p IH]; intro acc; cbn [fold_left].
      - cbn. ring.
      - rewrite IH, padd_den, pmulm_den. cbn [pden fold_right fst snd]. fold (pden p). ring. }
    rewrite G. cbn. ring.
  Qed.
  Lemma pconst_den c : pden (pconst c) = c.
  Proof. unfold pconst. destruct (Z.eqb_spec c 0) as [->|]; cbn; ring. Qed.
End Den.

(** ** Symbolic execution *)
(** no line of its own in /repo: verified symbolic execution of that code *)
Definition senv := list (var * poly).
(** no line of its own in /repo: verified symbolic execution of that code *)
Fixpoint sget (m : senv) (x : var) : option poly :=
  match m with
  | [] => None
  | (y, i) :: m' => if var_eqb y x then Some i else sget m' x
  end.
(** no line of its own in /repo: verified symbolic execution of that code *)
Fixpoint sset (m : senv) (x : var) (i : poly) : senv :=
  match m with
  | [] => [(x, i)]
  | (y, j) :: m' => if var_eqb y x then (x, i) :: m' else (y, j) :: sset m' x i
  end.

(** Subexpressions that are not polynomial (shifts to the right, masks, loads)
    become fresh variables, numbered from [n]. *)
(** no line of its own in /repo: verified symbolic execution of that code *)
Fixpoint sexpr (m : senv) (x : expr) (n : N) : option (poly * N) :=
  match x with
  | Ev x => option_map (fun p => (p, n)) (sget m x)
  | Ec z => Some (pconst z, n)
  | Eadd _ a b =>
      match sexpr m a n with
      | Some (p, n1) => match sexpr m b n1 with Some (q, n2) => Some (padd p q, n2) | None => None end
      | None => None end
  | Esub _ a b =>
      match sexpr m a n with
      | Some (p, n1) => match sexpr m b n1 with Some (q, n2) => Some (padd p (pscale (-1) q), n2) | None => None end
      | None => None end
  | Emul _ a b =>
      match sexpr m a n with
      | Some (p, n1) => match sexpr m b n1 with Some (q, n2) => Some (pmul p q, n2) | None => None end
      | None => None end
  | Eshl _ a k =>
      match sexpr m a n with
      | Some (p, n1) => Some (pscale (2 ^ k) p, n1)
      | None => None end
  | Econv _ a => sexpr m a n
  | Eshr _ _ | Eand _ _ | Eor _ _ | Eload _ _ _ => Some ([([n], 1)], (n + 1)%N)
  end.
(** no line of its own in /repo: verified symbolic execution of that code *)
Fixpoint sym (m : senv) (p : prog) (n : N) : option (senv * N) :=
  match p with
  | [] => Some (m, n)
  | s :: p' => match sexpr m (snd s) n with
               | Some (q, n') => sym (sset m (fst s) q) p' n'
               | None => None
               end
  end.

(** The values of the opaque subexpressions, in order. *)
(** no line of its own in /repo: verified symbolic execution of that code *)
Fixpoint etrace (e : env) (x : expr) : list Z :=
  match x with
  | Ev _ | Ec _ => []
  | Eadd _ a b | Esub _ a b | Emul _ a b => etrace e a ++ etrace e b
  | Eshl _ a _ | Econv _ a => etrace e a
  | Eshr _ _ | Eand _ _ | Eor _ _ | Eload _ _ _ => [ideal e x]
  end.
(** no line of its own in /repo: verified symbolic execution of that code *)
Fixpoint ptrace (e : env) (p : prog) : list Z :=
  match p with
  | [] => []
  | s :: p' => etrace e (snd s) ++ ptrace (upd e (fst s) (ideal e (snd s))) p'
  end.

(** no line of its own in /repo: verified symbolic execution of that code *)
Definition agrees (r : N -> Z) (m : senv) (e : env) : Prop := forall x p, sget m x = Some p -> pden r p = e x.
(** no line of its own in /repo: verified symbolic execution of that code *)
Definition traced (r : N -> Z) (n : N) (t : list Z) : Prop :=
  forall i, (i < List.length t)%nat -> r (n + N.of_nat i)%N = nth i t 0.

Lemma traced_app r n a b : traced r n (a ++ b) -> traced r n a /\ traced r (n + N.of_nat (List.length a)) b.
Proof.
  intro H. split; intros i Hi.
  - rewrite H by (rewrite app_length; lia). now rewrite app_nth1.
  - replace (n + N.of_nat (List.length a) + N.of_nat i)%N with (n + N.of_nat (List.length a + i))%N by lia.
    rewrite H by (rewrite app_length; lia). rewrite app_nth2 by lia. f_equal. lia.
Qed.

Lemma sexpr_sound r m e x : agrees r m e -> forall n p n',
  sexpr m x n = Some (p, n') -> traced r n (etrace e x) ->
  pden r p = ideal e x /\ n' = (n + N.of_nat (List.length (etrace e x)))%N.
Proof.
  intro Ag. induction x; intros n0 p n' H T; cbn [sexpr] in H; cbn [etrace] in T; cbn [ideal etrace].
  - destruct (sget m x) as [q|] eqn:E; [|discriminate H]. cbn in H. inversion H; subst. split; [now apply Ag|cbn; lia].
  - inversion H; subst. split; [apply pconst_den|cbn; lia].
  - destruct (sexpr m x1 n0) as [[p1 n1]|] eqn:E1; [|discriminate H]. destruct (sexpr m x2 n1) as [[p2 n2]|] eqn:E2; [|discriminate H].
    inversion H; subst. apply traced_app in T. destruct T as [T1 T2].
    destruct (IHx1 _ _ _ E1 T1) as [D1 ->]. destruct (IHx2 _ _ _ E2 T2) as [D2 ->].
    rewrite padd_den, D1, D2, app_length. split; [ring|lia].
  - destruct (sexpr m x1 n0) as [[p1 n1]|] eqn:E1; [|discriminate H]. destruct (sexpr m x2 n1) as [[p2 n2]|] eqn:E2; [|discriminate H].
    inversion H; subst. apply traced_app in T. destruct T as [T1 T2].
    destruct (IHx1 _ _ _ E1 T1) as [D1 ->]. destruct (IHx2 _ _ _ E2 T2) as [D2 ->].
    rewrite padd_den, pscale_den, D1, D2, app_length. split; [ring|lia].
  - destruct (sexpr m x1 n0) as [[p1 n1]|] eqn:E1; [|discriminate H]. destruct (sexpr m x2 n1) as [[p2 n2]|] eqn:E2; [|discriminate H].
    inversion H; subst. apply traced_app in T. destruct T as [T1 T2].
    destruct (IHx1 _ _ _ E1 T1) as [D1 ->]. destruct (IHx2 _ _ _ E2 T2) as [D2 ->].
    rewrite pmul_den, D1, D2, app_length. split; [ring|lia].
  - destruct (sexpr m x n0) as [[p1 n1]|] eqn:E1; [|discriminate H].
    inversion H; subst. destruct (IHx _ _ _ E1 T) as [D1 ->]. rewrite pscale_den, D1. split; [ring|reflexivity].
  - inversion H; subst. specialize (T 0%nat ltac:(cbn; lia)). rewrite N.add_0_r in T. cbn [nth ideal] in T.
    cbn [pden mden fold_right fst snd List.length]. rewrite T. split; [ring|lia].
  - inversion H; subst. specialize (T 0%nat ltac:(cbn; lia)). rewrite N.add_0_r in T. cbn [nth ideal] in T.
    cbn [pden mden fold_right fst snd List.length]. rewrite T. split; [ring|lia].
  - inversion H; subst. specialize (T 0%nat ltac:(cbn; lia)). rewrite N.add_0_r in T. cbn [nth ideal] in T.
    cbn [pden mden fold_right fst snd List.length]. rewrite T. split; [ring|lia].
  - destruct (IHx _ _ _ H T) as [D1 ->]. rewrite D1. split; reflexivity.
  - inversion H; subst. specialize (T 0%nat ltac:(cbn; lia)). rewrite N.add_0_r in T. cbn [nth ideal] in T.
    cbn [pden mden fold_right fst snd List.length]. rewrite T. split; [ring|lia].
Qed.

Lemma sget_sset m x i y : sget (sset m x i) y = if var_eqb x y then Some i else sget m y.
Proof.
  induction m as [|[z j] m IH]; cbn [sset sget].
  - reflexivity.
  - destruct (var_eqb z x) eqn:E; cbn [sget].
    + apply var_eqb_true in E. subst z. destruct (var_eqb x y); reflexivity.
    + destruct (var_eqb z y) eqn:F; [|exact IH].
      apply var_eqb_true in F. subst z. destruct (var_eqb x y) eqn:G; [|reflexivity].
      apply var_eqb_true in G. subst. rewrite (proj2 (var_eqb_true y y) eq_refl) in E. discriminate E.
Qed.

Lemma sym_sound r p : forall m e n m' n', agrees r m e -> traced r n (ptrace e p) ->
  sym m p n = Some (m', n') -> agrees r m' (iexec e p).
Proof.
  induction p as [|s p IH]; intros m e n m' n' Ag T H; cbn [sym] in H.
  - inversion H; subst. exact Ag.
  - destruct (sexpr m (snd s) n) as [[q n1]|] eqn:E; [|discriminate H].
    cbn [ptrace] in T. apply traced_app in T. destruct T as [T1 T2].
    destruct (sexpr_sound _ _ _ _ Ag _ _ _ E T1) as [D ->].
    unfold iexec. cbn [fold_left]. fold (iexec (upd e (fst s) (ideal e (snd s))) p).
    eapply IH; [| exact T2 | exact H].
    intros y z Hy. rewrite sget_sset in Hy. unfold upd. destruct (var_eqb (fst s) y).
    + inversion Hy; subst. exact D.
    + now apply Ag.
Qed.

(** ** Checking a congruence *)
(** no line of its own in /repo: verified symbolic execution of that code *)
Definition inputs_env (ins : list var) : senv :=
  map (fun p => (snd p, [([N.of_nat (fst p)], 1)])) (combine (seq 0 (List.length ins)) ins).

(** Does [out], evaluated after running [p], differ from [target], evaluated
    before, by a multiple of [md], whatever the inputs [ins]?  ([md] = 0:
    are they equal?) *)
(** no line of its own in /repo: verified symbolic execution of that code *)
Definition congr_check (md : Z) (ins : list var) (p : prog) (out target : expr) : bool :=
  let m0 := inputs_env ins in
  match sym m0 p (N.of_nat (List.length ins)) with
  | None => false
  | Some (m', n') =>
      match sexpr m' out n', sexpr m0 target n' with
      | Some (po, n1), Some (pt, n2) =>
          N.eqb n1 n' && N.eqb n2 n' &&
          forallb (fun t => Z.eqb (if Z.eqb md 0 then snd t else snd t mod md) 0) (padd po (pscale (-1) pt))
      | _, _ => false
      end
  end.

Lemma inputs_agree e ins tr :
  agrees (fun k => nth (N.to_nat k) (map e ins ++ tr) 0) (inputs_env ins) e.
Proof.
  unfold inputs_env. intros x p H.
  assert (G : forall pre l, (forall i y, nth_error l i = Some y -> nth_error ins (pre + i) = Some y) ->
    sget (map (fun p => (snd p, [([N.of_nat (fst p)], 1)])) (combine (seq pre (List.length l)) l)) x = Some p ->
    exists i, nth_error ins i = Some x /\ p = [([N.of_nat i], 1)]).
  { intros pre l. revert pre. induction l as [|y l IH]; intros pre Hl Hg; cbn in Hg; [discriminate Hg|].
    destruct (var_eqb y x) eqn:E.
    - apply var_eqb_true in E. subst y. inversion Hg; subst. exists pre. split; [|reflexivity].
      specialize (Hl 0%nat x eq_refl). now rewrite Nat.add_0_r in Hl.
    - apply (IH (S pre)).
      + intros i z Hz. specialize (Hl (S i) z Hz). now rewrite Nat.add_succ_r in Hl.
      + exact Hg. }
  destruct (G 0%nat ins) as [i [Hi ->]]; [auto | exact H |].
  cbn [pden mden fold_right fst snd]. rewrite Nat2N.id.
  assert (L : (i < List.length ins)%nat) by (apply nth_error_Some; congruence).
  rewrite app_nth1 by (now rewrite map_length).
  rewrite nth_indep with (d' := e x) by (now rewrite map_length).
  rewrite map_nth. erewrite nth_error_nth by exact Hi. ring.
Qed.

Lemma etrace_none e x : forall m n p, sexpr m x n = Some (p, n) -> etrace e x = [] .
Proof.
  intros m. assert (G : forall x n p n', sexpr m x n = Some (p, n') -> n' = (n + N.of_nat (List.length (etrace e x)))%N).
  { clear x. induction x; intros n0 p n' H; cbn [sexpr] in H; cbn [etrace].
    - destruct (sget m x); inversion H; subst; cbn; lia.
    - inversion H; subst; cbn; lia.
    - destruct (sexpr m x1 n0) as [[p1 n1]|] eqn:E1; [|discriminate H]. destruct (sexpr m x2 n1) as [[p2 n2]|] eqn:E2; [|discriminate H].
      inversion H; subst. rewrite (IHx2 _ _ _ E2), (IHx1 _ _ _ E1), app_length. lia.
    - destruct (sexpr m x1 n0) as [[p1 n1]|] eqn:E1; [|discriminate H]. destruct (sexpr m x2 n1) as [[p2 n2]|] eqn:E2; [|discriminate H].
      inversion H; subst. rewrite (IHx2 _ _ _ E2), (IHx1 _ _ _ E1), app_length. lia.
    - destruct (sexpr m x1 n0) as [[p1 n1]|] eqn:E1; [|discriminate H]. destruct (sexpr m x2 n1) as [[p2 n2]|] eqn:E2; [|discriminate H].
      inversion H; subst. rewrite (IHx2 _ _ _ E2), (IHx1 _ _ _ E1), app_length. lia.
    - destruct (sexpr m x n0) as [[p1 n1]|] eqn:E1; [|discriminate H]. inversion H; subst. eauto.
    - inversion H; subst; cbn; lia.
    - inversion H; subst; cbn; lia.
    - inversion H; subst; cbn; lia.
    - eauto.
    - inversion H; subst; cbn; lia. }
  intros n p H. apply G in H. destruct (etrace e x); [reflexivity|]. cbn [List.length] in H. lia.
Qed.

Lemma forallb_divide r md p :
  forallb (fun t : mono * Z => Z.eqb (if Z.eqb md 0 then snd t else snd t mod md) 0) p = true -> (md | pden r p).
Proof.
  induction p as [|[m c] p IH]; cbn [forallb]; intro H.
  - apply Z.divide_0_r.
  - apply andb_true_iff in H. destruct H as [H1 H2]. cbn [pden fold_right fst snd]. fold (pden r p).
    apply Z.divide_add_r; [|auto]. apply Z.divide_mul_l. cbn [snd] in H1. apply Z.eqb_eq in H1.
    destruct (Z.eqb_spec md 0) as [->|N0]; [subst; apply Z.divide_0_r|]. now apply Z.mod_divide.
Qed.

Theorem congr_check_sound md ins p out target :
  congr_check md ins p out target = true ->
  forall e, (md | ideal (iexec e p) out - ideal e target).
Proof.
  unfold congr_check. intros H e.
  destruct (sym (inputs_env ins) p (N.of_nat (List.length ins))) as [[m' n']|] eqn:S; [|discriminate H].
  destruct (sexpr m' out n') as [[po n1]|] eqn:So; [|discriminate H].
  destruct (sexpr (inputs_env ins) target n') as [[pt n2]|] eqn:St; [|discriminate H].
  apply andb_true_iff in H. destruct H as [H F]. apply andb_true_iff in H. destruct H as [E1 E2].
  apply N.eqb_eq in E1, E2. subst n1 n2.
  set (r := fun k => nth (N.to_nat k) (map e ins ++ ptrace e p) 0).
  assert (Ag : agrees r (inputs_env ins) e) by apply inputs_agree.
  assert (T : traced r (N.of_nat (List.length ins)) (ptrace e p)).
  { intros i Hi. unfold r. replace (N.to_nat (N.of_nat (List.length ins) + N.of_nat i)) with (List.length (map e ins) + i)%nat by (rewrite map_length; lia).
    rewrite app_nth2 by lia. f_equal. lia. }
  pose proof (sym_sound r p _ _ _ _ _ Ag T S) as Ag'.
  destruct (sexpr_sound r m' (iexec e p) out Ag' _ _ _ So) as [Do _].
  { rewrite (etrace_none _ _ _ _ _ So). intros i Hi. cbn in Hi. lia. }
  destruct (sexpr_sound r _ e target Ag _ _ _ St) as [Dt _].
  { rewrite (etrace_none _ _ _ _ _ St). intros i Hi. cbn in Hi. lia. }
  rewrite <- Do, <- Dt. apply (forallb_divide r) in F. rewrite padd_den, pscale_den in F.
  replace (pden r po - pden r pt) with (pden r po + -1 * pden r pt) by ring. exact F.
Qed.
