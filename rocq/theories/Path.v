(** Paths: model of utils/utils.go:59-64 ([ResolvePath]) with the functions of
    Go's path/filepath (Unix) it calls, and a small semantics of paths to state
    what it should do. *)
From Coq Require Import List NArith ZArith Lia Bool Arith.
From Verif Require Import Base.
Import ListNotations.

(** Go library path, called at utils/utils.go:59-64 and cli/coniksserver/internal/cmd/init.go:39-109 *)
Definition slash : byte := x2f.
(** Go library path, called at utils/utils.go:59-64 and cli/coniksserver/internal/cmd/init.go:39-109 *)
Definition dot : byte := x2e.
(** Go library path, called at utils/utils.go:59-64 and cli/coniksserver/internal/cmd/init.go:39-109 *)
Definition empty {A} (l : list A) : bool := match l with [] => true | _ => false end.

(** ** Model *)

(** [filepath.IsAbs] *)
(** Go library path, called at utils/utils.go:59-64 and cli/coniksserver/internal/cmd/init.go:39-109 *)
Definition IsAbs (p : bytes) : bool := match p with c :: _ => byte_eqb c slash | [] => false end.

(** The elements of a path: the texts between slashes. *)
(** Go library path, called at utils/utils.go:59-64 and cli/coniksserver/internal/cmd/init.go:39-109 *)
Fixpoint split (p : bytes) : list bytes :=
  match p with
  | [] => [[]]
  | c :: p' =>
      if byte_eqb c slash then [] :: split p'
      else match split p' with w :: l => (c :: w) :: l | [] => [[c]] end
  end.
(** Go library path, called at utils/utils.go:59-64 and cli/coniksserver/internal/cmd/init.go:39-109 *)
Fixpoint join (l : list bytes) : bytes :=
  match l with
  | [] => []
  | [w] => w
  | w :: l' => w ++ slash :: join l'
  end.
(** Go library path, called at utils/utils.go:59-64 and cli/coniksserver/internal/cmd/init.go:39-109 *)
Definition is_dot (w : bytes) : bool := beq w [dot].
(** Go library path, called at utils/utils.go:59-64 and cli/coniksserver/internal/cmd/init.go:39-109 *)
Definition is_dotdot (w : bytes) : bool := beq w [dot; dot].

(** [filepath.Clean], element by element; [out] is the output so far, last
    element first. *)
(** Go library path, called at utils/utils.go:59-64 and cli/coniksserver/internal/cmd/init.go:39-109 *)
Definition clean_step (rooted : bool) (out : list bytes) (w : bytes) : list bytes :=
  if empty w || is_dot w then out
  else if is_dotdot w then
    match out with
    | top :: out' => if is_dotdot top then w :: out else out'
    | [] => if rooted then [] else [w]
    end
  else w :: out.
(** Go library path, called at utils/utils.go:59-64 and cli/coniksserver/internal/cmd/init.go:39-109 *)
Definition Clean (p : bytes) : bytes :=
  if empty p then [dot]
  else
    let rooted := IsAbs p in
    let out := rev (fold_left (clean_step rooted) (split p) []) in
    if rooted then slash :: join out
    else if empty out then [dot] else join out.

(** The part of a path up to its last slash, inclusive. *)
(** Go library path, called at utils/utils.go:59-64 and cli/coniksserver/internal/cmd/init.go:39-109 *)
Fixpoint upto_slash (p : bytes) : bytes :=
  match p with
  | [] => []
  | c :: p' =>
      match upto_slash p' with
      | [] => if byte_eqb c slash then [c] else []
      | d => c :: d
      end
  end.
(** [filepath.Dir] *)
(** Go library path, called at utils/utils.go:59-64 and cli/coniksserver/internal/cmd/init.go:39-109 *)
Definition Dir (p : bytes) : bytes := Clean (upto_slash p).
(** [filepath.Join] of two elements; also [path.Join] *)
(** Go library path, called at utils/utils.go:59-64 and cli/coniksserver/internal/cmd/init.go:39-109 *)
Definition Join (a b : bytes) : bytes :=
  if empty a then if empty b then [] else Clean b else Clean (a ++ slash :: b).

(** utils/utils.go:59-64 [ResolvePath] *)
Definition ResolvePath (file other : bytes) : bytes :=
  if IsAbs file then file else Join (Dir other) file.

(** ** What paths mean.  A place is the list of names on the way from the root
    (innermost first); symbolic links are not modelled. *)
(** no line of its own in /repo: what a path means to the operating system (specification) *)
Definition place := list bytes.
(** no line of its own in /repo: what a path means to the operating system (specification) *)
Definition go (here : place) (w : bytes) : place :=
  if empty w || is_dot w then here
  else if is_dotdot w then tl here
  else w :: here.
(** no line of its own in /repo: what a path means to the operating system (specification) *)
Definition walk (here : place) (ws : list bytes) : place := fold_left go ws here.
(** The place a path denotes for a process whose working directory is [cwd]. *)
(** no line of its own in /repo: what a path means to the operating system (specification) *)
Definition locate (cwd : place) (p : bytes) : place :=
  walk (if IsAbs p then [] else cwd) (split p).
(** The directory of the file a path denotes. *)
(** no line of its own in /repo: what a path means to the operating system (specification) *)
Definition locate_dir (cwd : place) (p : bytes) : place :=
  walk (if IsAbs p then [] else cwd) (removelast (split p)).

(** ** Facts *)
(** no line of its own in /repo: what a path means to the operating system (specification) *)
Definition noslash (w : bytes) : Prop := ~ In slash w.

Lemma split_ne p : split p <> [].
Proof. destruct p as [|c p]; cbn [split]; [discriminate|]. destruct (byte_eqb c slash); [discriminate|]. destruct (split p); discriminate. Qed.

Lemma split_noslash p : Forall noslash (split p).
Proof.
  induction p as [|c p IH]; cbn [split].
  - constructor; [intros []|constructor].
  - destruct (byte_eqb c slash) eqn:E.
    + constructor; [intros []|exact IH].
    + destruct (split p) as [|w l] eqn:S; [destruct (split_ne p S)|].
      inversion IH; subst. constructor; [|assumption].
      intros [K|K]; [subst; rewrite (proj2 (byte_eqb_eq _ _) eq_refl) in E; discriminate|auto].
Qed.

Lemma split_one w : noslash w -> split w = [w].
Proof.
  induction w as [|c w IH]; intro H; [reflexivity|]. cbn [split].
  destruct (byte_eqb c slash) eqn:E.
  - apply byte_eqb_eq in E. destruct H. left. exact E.
  - rewrite IH; [reflexivity|]. intro K. apply H. right. exact K.
Qed.
Lemma split_app w p : noslash w -> split (w ++ slash :: p) = w :: split p.
Proof.
  induction w as [|c w IH]; intro H.
  - cbn [app split]. rewrite (proj2 (byte_eqb_eq _ _) eq_refl). reflexivity.
  - cbn [app split]. destruct (byte_eqb c slash) eqn:E.
    + apply byte_eqb_eq in E. destruct H. left. exact E.
    + rewrite IH; [reflexivity|]. intro K. apply H. right. exact K.
Qed.
Lemma split_join l : l <> [] -> Forall noslash l -> split (join l) = l.
Proof.
  induction l as [|w l IH]; intros NE F; [congruence|]. inversion F; subst. cbn [join].
  destruct l as [|w' l]; [apply split_one; assumption|].
  rewrite split_app by assumption. rewrite IH; [reflexivity|discriminate|assumption].
Qed.

Lemma walk_app h a b : walk h (a ++ b) = walk (walk h a) b.
Proof. apply fold_left_app. Qed.

(** the elements [Clean] keeps *)
(** no line of its own in /repo: what a path means to the operating system (specification) *)
Definition kept (w : bytes) : Prop := empty w || is_dot w = false /\ noslash w.
Lemma clean_kept r ws out : Forall noslash ws -> Forall kept out -> Forall kept (fold_left (clean_step r) ws out).
Proof.
  revert out. induction ws as [|w ws IH]; intros out F K; [exact K|]. inversion F; subst. cbn [fold_left]. apply IH; [assumption|].
  unfold clean_step. destruct (empty w || is_dot w) eqn:E; [exact K|].
  assert (kw : kept w) by (split; assumption).
  destruct (is_dotdot w).
  - destruct out as [|t out']; [destruct r; repeat constructor; apply kw|].
    destruct (is_dotdot t); [constructor; assumption|inversion K; assumption].
  - constructor; assumption.
Qed.

(** shape of the output: names over a run of [..], which is empty for a rooted
    path *)
(** no line of its own in /repo: what a path means to the operating system (specification) *)
Inductive shape (r : bool) : list bytes -> Prop :=
| sh_nil : shape r []
| sh_name w out : is_dotdot w = false -> shape r out -> shape r (w :: out)
| sh_up w out : r = false -> is_dotdot w = true -> Forall (fun x => is_dotdot x = true) out -> shape r (w :: out).
Lemma clean_shape r ws out : shape r out -> shape r (fold_left (clean_step r) ws out).
Proof.
  revert out. induction ws as [|w ws IH]; intros out K; [exact K|]. cbn [fold_left]. apply IH.
  unfold clean_step. destruct (empty w || is_dot w); [exact K|]. destruct (is_dotdot w) eqn:D.
  - destruct out as [|t out']; [destruct r; [exact K|apply sh_up; auto]|].
    destruct (is_dotdot t) eqn:T.
    + inversion K; subst; [congruence|]. apply sh_up; auto.
    + inversion K; subst; [assumption|congruence].
  - apply sh_name; assumption.
Qed.

Lemma go_name h w : empty w || is_dot w = false -> is_dotdot w = false -> go h w = w :: h.
Proof. unfold go. intros -> ->. reflexivity. Qed.

Lemma clean_walk r base ws out :
  (r = true -> base = []) -> shape r out -> Forall kept out -> Forall noslash ws ->
  walk base (rev (fold_left (clean_step r) ws out)) = walk (walk base (rev out)) ws.
Proof.
  intro R. revert out. induction ws as [|w ws IH]; intros out S K N; [reflexivity|].
  inversion N as [|? ? Nw Nws]; subst. cbn [fold_left].
  pose proof (clean_shape r [w] out S) as S'. cbn [fold_left] in S'.
  pose proof (clean_kept r [w] out (Forall_cons _ Nw (Forall_nil _)) K) as K'. cbn [fold_left] in K'.
  rewrite IH by assumption.
  change (walk (walk base (rev out)) (w :: ws)) with (walk (go (walk base (rev out)) w) ws). f_equal.
  unfold clean_step, go. destruct (empty w || is_dot w) eqn:E; [reflexivity|]. destruct (is_dotdot w) eqn:D.
  - destruct out as [|t out']; [destruct r; cbn [rev walk fold_left app]|].
    + rewrite R by reflexivity. reflexivity.
    + unfold go. rewrite E, D. reflexivity.
    + destruct (is_dotdot t) eqn:T.
      * cbn [rev]. rewrite !walk_app. cbn [walk fold_left]. unfold go at 1. rewrite E, D. reflexivity.
      * cbn [rev]. rewrite walk_app. cbn [walk fold_left].
        inversion K as [|? ? [kt _] _]; subst. rewrite (go_name _ t kt T). reflexivity.
  - cbn [rev]. rewrite walk_app. cbn [walk fold_left]. unfold go at 1. rewrite E, D. reflexivity.
Qed.

Lemma Forall_kept_noslash l : Forall kept l -> Forall noslash l.
Proof. induction 1 as [|w l [_ K] _ IH]; constructor; assumption. Qed.

Lemma IsAbs_app a b : a <> [] -> IsAbs (a ++ b) = IsAbs a.
Proof. destruct a; [congruence|reflexivity]. Qed.
Lemma noslash_IsAbs w : noslash w -> IsAbs w = false.
Proof. destruct w as [|c w]; [reflexivity|]. intro H. cbn. destruct (byte_eqb c slash) eqn:E; [|reflexivity]. apply byte_eqb_eq in E. destruct H. left. exact E. Qed.
Lemma join_IsAbs l : Forall kept l -> IsAbs (join l) = false.
Proof.
  destruct l as [|w l]; intro K; [reflexivity|]. inversion K as [|? ? [E N] _]; subst.
  destruct w as [|c w]; [discriminate E|].
  destruct l; cbn [join]; [apply noslash_IsAbs; exact N|].
  rewrite IsAbs_app by discriminate. apply noslash_IsAbs; exact N.
Qed.

Lemma clean_parts p : p <> [] ->
  exists out, Forall kept out /\ shape (IsAbs p) (rev out) /\
    out = rev (fold_left (clean_step (IsAbs p)) (split p) []) /\
    Clean p = if IsAbs p then slash :: join out else if empty out then [dot] else join out.
Proof.
  intro NE. exists (rev (fold_left (clean_step (IsAbs p)) (split p) [])).
  split; [|split; [|split]].
  - apply Forall_rev, clean_kept; [apply split_noslash|constructor].
  - rewrite rev_involutive. apply clean_shape. constructor.
  - reflexivity.
  - unfold Clean. destruct p; [congruence|reflexivity].
Qed.

Lemma Clean_ne p : Clean p <> [].
Proof.
  destruct p as [|c p]; [discriminate|].
  destruct (clean_parts (c :: p)) as (out & K & _ & _ & ->); [discriminate|].
  destruct (IsAbs (c :: p)); [discriminate|].
  destruct out as [|w out]; [discriminate|]. cbn [empty join]. inversion K as [|? ? [E _] _]; subst.
  destruct out; [intros ->; discriminate E|]. destruct w; [discriminate E|discriminate].
Qed.
Lemma Clean_IsAbs p : IsAbs (Clean p) = IsAbs p.
Proof.
  destruct p as [|c p]; [reflexivity|].
  destruct (clean_parts (c :: p)) as (out & K & _ & _ & ->); [discriminate|].
  destruct (IsAbs (c :: p)); [reflexivity|].
  destruct out as [|w out]; [reflexivity|]. cbn [empty]. apply join_IsAbs. exact K.
Qed.
(** [Clean] does not change what a path denotes. *)
Lemma locate_Clean cwd p : locate cwd (Clean p) = locate cwd p.
Proof.
  unfold locate. rewrite Clean_IsAbs.
  destruct p as [|c p]; [reflexivity|].
  destruct (clean_parts (c :: p)) as (out & K & _ & Eo & ->); [discriminate|].
  assert (W : walk (if IsAbs (c :: p) then [] else cwd) out =
              walk (if IsAbs (c :: p) then [] else cwd) (split (c :: p))).
  { rewrite Eo. rewrite clean_walk; [reflexivity| |constructor|constructor|apply split_noslash].
    intros ->. reflexivity. }
  destruct (IsAbs (c :: p)).
  - rewrite <- W. destruct out as [|w out]; [reflexivity|].
    change (slash :: join (w :: out)) with ([] ++ slash :: join (w :: out)).
    rewrite split_app by (intros []). rewrite split_join; [reflexivity|discriminate|apply Forall_kept_noslash; exact K].
  - rewrite <- W. destruct out as [|w out]; [reflexivity|]. cbn [empty].
    rewrite split_join; [reflexivity|discriminate|apply Forall_kept_noslash; exact K].
Qed.

(** [upto_slash] *)
Lemma upto_noslash w : noslash w -> upto_slash w = [].
Proof.
  induction w as [|c w IH]; intro H; [reflexivity|]. cbn [upto_slash]. rewrite IH.
  - destruct (byte_eqb c slash) eqn:E; [|reflexivity]. apply byte_eqb_eq in E. destruct H. left. exact E.
  - intro K. apply H. right. exact K.
Qed.
Lemma upto_app p w : noslash w -> upto_slash (p ++ slash :: w) = p ++ [slash].
Proof.
  intro H. induction p as [|c p IH]; cbn [app upto_slash].
  - rewrite (upto_noslash w H). rewrite (proj2 (byte_eqb_eq _ _) eq_refl). reflexivity.
  - rewrite IH. destruct (p ++ [slash]) eqn:E; [destruct p; discriminate E|reflexivity].
Qed.
Lemma last_slash p : noslash p \/ exists q w, p = q ++ slash :: w /\ noslash w.
Proof.
  induction p as [|c p IH]; [left; intros []|].
  destruct IH as [N|(q & w & -> & N)]; [|right; exists (c :: q), w; auto].
  destruct (byte_eqb c slash) eqn:E.
  - apply byte_eqb_eq in E. subst. right. exists [], p. auto.
  - left. intros [K|K]; [|auto]. subst. rewrite (proj2 (byte_eqb_eq _ _) eq_refl) in E. discriminate.
Qed.
Lemma split_snoc p q : split (p ++ slash :: q) = split p ++ split q.
Proof.
  induction p as [|c p IH]; cbn [app split].
  - rewrite (proj2 (byte_eqb_eq _ _) eq_refl). reflexivity.
  - destruct (byte_eqb c slash); rewrite IH; [reflexivity|].
    destruct (split p) eqn:E; [destruct (split_ne p E)|reflexivity].
Qed.
Lemma IsAbs_snoc p q : p <> [] -> IsAbs (p ++ slash :: q) = IsAbs p.
Proof. apply IsAbs_app. Qed.

Lemma locate_Dir cwd p : locate cwd (Dir p) = locate_dir cwd p.
Proof.
  unfold Dir. rewrite locate_Clean. unfold locate, locate_dir.
  destruct (last_slash p) as [N|(q & w & -> & N)].
  - rewrite (upto_noslash p N), (split_one p N), (noslash_IsAbs p N). reflexivity.
  - rewrite (upto_app q w N).
    assert (A : IsAbs (q ++ [slash]) = IsAbs (q ++ slash :: w)).
    { destruct q; [reflexivity|]. rewrite !IsAbs_app by discriminate. reflexivity. }
    rewrite A, !split_snoc, (split_one w N), removelast_last. cbn [split].
    rewrite walk_app. reflexivity.
Qed.

Lemma IsAbs_Dir p : IsAbs (Dir p) = IsAbs p.
Proof.
  unfold Dir. rewrite Clean_IsAbs. destruct (last_slash p) as [N|(q & w & -> & N)].
  - rewrite (upto_noslash p N), (noslash_IsAbs p N). reflexivity.
  - rewrite (upto_app q w N). destruct q; [reflexivity|]. rewrite !IsAbs_app by discriminate. reflexivity.
Qed.
Lemma Dir_ne p : Dir p <> []. Proof. apply Clean_ne. Qed.

Lemma Resolve_rel file other : IsAbs file = false -> ResolvePath file other = Clean (Dir other ++ slash :: file).
Proof.
  intro H. unfold ResolvePath. rewrite H. unfold Join. destruct (Dir other) eqn:E; [destruct (Dir_ne other E)|reflexivity].
Qed.

(** [ResolvePath] on what it denotes. *)
Lemma locate_Resolve cwd file other :
  locate cwd (ResolvePath file other) =
  if IsAbs file then locate cwd file else locate (locate_dir cwd other) file.
Proof.
  destruct (IsAbs file) eqn:A; [unfold ResolvePath; rewrite A; reflexivity|].
  rewrite Resolve_rel by exact A. rewrite locate_Clean. unfold locate at 1.
  rewrite IsAbs_snoc by apply Dir_ne. rewrite split_snoc, walk_app.
  fold (locate cwd (Dir other)). rewrite locate_Dir. unfold locate. rewrite A. reflexivity.
Qed.
Lemma Resolve_ne file other : ResolvePath file other <> [].
Proof.
  destruct (IsAbs file) eqn:A; [unfold ResolvePath; rewrite A; intros ->; discriminate A|].
  rewrite Resolve_rel by exact A. apply Clean_ne.
Qed.
Lemma Resolve_IsAbs file other : IsAbs (ResolvePath file other) = IsAbs file || IsAbs other.
Proof.
  destruct (IsAbs file) eqn:A; [unfold ResolvePath; rewrite A; exact A|].
  rewrite Resolve_rel by exact A. rewrite Clean_IsAbs, IsAbs_snoc by apply Dir_ne. apply IsAbs_Dir.
Qed.

(** [Clean] is idempotent. *)
Lemma clean_fix r out : shape r (rev out) -> Forall kept out -> fold_left (clean_step r) out [] = rev out.
Proof.
  intros S K. induction out as [|w out IH] using rev_ind; [reflexivity|].
  rewrite rev_app_distr in S. cbn [rev app] in S.
  apply Forall_app in K as [K Kw]. inversion Kw as [|? ? [E N] _]; subst.
  rewrite fold_left_app, rev_app_distr. cbn [fold_left rev app].
  inversion S as [|? ? D S'|? ? R D A]; subst.
  - rewrite IH by assumption. unfold clean_step. rewrite E, D. reflexivity.
  - assert (S' : shape false (rev out)).
    { destruct (rev out) as [|x l]; [constructor|]. inversion A; subst. apply sh_up; auto. }
    rewrite IH by assumption. unfold clean_step. rewrite E, D.
    destruct (rev out) as [|t l]; [reflexivity|]. inversion A as [|? ? T _]; subst. rewrite T. reflexivity.
Qed.
Lemma Clean_idem p : Clean (Clean p) = Clean p.
Proof.
  destruct p as [|c p]; [reflexivity|].
  pose proof (Clean_IsAbs (c :: p)) as A. pose proof (Clean_ne (c :: p)) as NE.
  destruct (clean_parts (c :: p)) as (out & K & S & _ & Ec); [discriminate|].
  destruct (clean_parts (Clean (c :: p)) NE) as (out2 & _ & _ & Eo & Ec2).
  rewrite Ec2, A. rewrite A in Eo. rewrite Ec in *. clear Ec Ec2 NE A.
  destruct (IsAbs (c :: p)) eqn:R.
  - assert (out2 = out) as ->; [|reflexivity]. rewrite Eo.
    change (slash :: join out) with ([] ++ slash :: join out). rewrite split_app by (intros []).
    cbn [fold_left]. change (clean_step true [] []) with (@nil bytes).
    destruct out as [|w out]; [reflexivity|].
    rewrite split_join; [|discriminate|apply Forall_kept_noslash; exact K].
    rewrite clean_fix by assumption. apply rev_involutive.
  - destruct out as [|w out]; [subst out2; reflexivity|]. cbn [empty] in *.
    assert (out2 = w :: out) as ->; [|reflexivity]. rewrite Eo.
    rewrite split_join; [|discriminate|apply Forall_kept_noslash; exact K].
    rewrite clean_fix by assumption. apply rev_involutive.
Qed.
