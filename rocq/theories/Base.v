(** Shared vocabulary of the model: bytes, Go panics, fixed-width integers,
    small list and association-list helpers.  Nothing here is specific to
    coniks-go. *)
From Coq Require Import List NArith ZArith Lia Bool Arith.
From Coq Require Export Init.Byte.
Import ListNotations.

(** Go's [byte] and [[]byte].  A Go slice is a value here: sharing of arrays
    is treated in [Slices.v], sharing of nodes and trees in [TreeHeap.v] and
    [PADHeap.v]. *)
Notation bytes := (list byte).

(** Result of a Go call: a normal return or a run-time panic (explicit
    [panic], nil dereference, index out of range, failed type assertion). *)
(** no line of its own in /repo: Go return values and panics, as in merkletree/merkletree.go:137-139 *)
Inductive result (A : Type) : Type :=
| Ok (a : A)
| Panic.
Arguments Ok {A} a.
Arguments Panic {A}.

(** no line of its own in /repo: Go return values and panics, as in merkletree/merkletree.go:137-139 *)
Definition bind {A B} (x : result A) (f : A -> result B) : result B :=
  match x with Ok a => f a | Panic => Panic end.

Notation "'do' x <- e1 ; e2" := (bind e1 (fun x => e2))
  (at level 200, x pattern, e1 at level 100, e2 at level 200, right associativity).

(** [bs[i]] in Go: panics when out of range. *)
(** Go indexing, e.g. utils/utils.go:14-20 *)
Definition index {A} (l : list A) (i : nat) : result A :=
  match nth_error l i with Some a => Ok a | None => Panic end.

(** [bytes.Equal]: nil and empty slices are equal. *)
(** no line of its own in /repo: equality of bytes, used by [beq] *)
Definition byte_eqb : byte -> byte -> bool := Byte.eqb.
(** Go library bytes.Equal, called e.g. at merkletree/proof.go:127, crypto/util.go:74 *)
Fixpoint beq (a b : bytes) : bool :=
  match a, b with
  | [], [] => true
  | x :: a', y :: b' => byte_eqb x y && beq a' b'
  | _, _ => false
  end.

Lemma byte_eqb_eq a b : byte_eqb a b = true <-> a = b.
Proof.
  split; intro H.
  - apply Byte.byte_dec_bl. exact H.
  - apply Byte.byte_dec_lb. exact H.
Qed.

Lemma beq_eq a b : beq a b = true <-> a = b.
Proof.
  revert b; induction a as [|x a IH]; destruct b as [|y b]; simpl; split; try congruence.
  - rewrite andb_true_iff, byte_eqb_eq, IH. intros [-> ->]; reflexivity.
  - intros [= -> ->]. rewrite andb_true_iff, byte_eqb_eq, IH. tauto.
Qed.

Lemma beq_refl a : beq a a = true.
Proof. apply beq_eq; reflexivity. Qed.

Lemma beq_neq a b : beq a b = false <-> a <> b.
Proof.
  rewrite <- beq_eq. destruct (beq a b); split; congruence.
Qed.

Lemma beq_sym a b : beq a b = beq b a.
Proof.
  destruct (beq a b) eqn:E; symmetry.
  - apply beq_eq in E; subst; apply beq_refl.
  - apply beq_neq in E; apply beq_neq; congruence.
Qed.

Lemma beq_spec a b : reflect (a = b) (beq a b).
Proof. destruct (beq a b) eqn:E; constructor; [apply beq_eq|apply beq_neq]; auto. Qed.

(** no line of its own in /repo: proof helper *)
Definition bytes_eq_dec (a b : bytes) : {a = b} + {a <> b}.
Proof. destruct (beq a b) eqn:E; [left; apply beq_eq|right; apply beq_neq]; auto. Defined.

(** A byte from a number, truncating like a Go conversion [byte(n)]. *)
(** Go conversion byte(n), e.g. storage/kv/range.go:62 *)
Definition b8 (n : N) : byte :=
  match Byte.of_N (n mod 256) with Some b => b | None => x00 end.

Lemma to_N_b8 n : Byte.to_N (b8 n) = (n mod 256)%N.
Proof.
  unfold b8. destruct (Byte.of_N (n mod 256)) eqn:E.
  - apply Byte.to_of_N in E. exact E.
  - apply Byte.of_N_None_iff in E. assert (n mod 256 < 256)%N by (apply N.mod_lt; lia). lia.
Qed.

Lemma b8_to_N b : b8 (Byte.to_N b) = b.
Proof. destruct b; reflexivity. Qed.

Lemma to_N_lt b : (Byte.to_N b < 256)%N.
Proof. destruct b; reflexivity. Qed.

Lemma to_N_inj a b : Byte.to_N a = Byte.to_N b -> a = b.
Proof. intro H. rewrite <- (b8_to_N a), <- (b8_to_N b), H. reflexivity. Qed.

(** Unsigned 64-bit arithmetic. *)
(** no line of its own in /repo: uint64, the type of epochs (merkletree/str.go:23-31) *)
Definition two64 : N := (2 ^ 64)%N.
(** uint64 addition, e.g. merkletree/pad.go:99 (epoch + 1) *)
Definition add64 (a b : N) : N := ((a + b) mod two64)%N.

(** Overwrite position [i]. *)
(** Go assignment s[i] = v *)
Fixpoint set_nth {A} (i : nat) (x : A) (l : list A) : list A :=
  match i, l with
  | _, [] => []
  | O, _ :: l' => x :: l'
  | S i', y :: l' => y :: set_nth i' x l'
  end.

Lemma set_nth_length {A} i (x : A) l : length (set_nth i x l) = length l.
Proof. revert i; induction l; destruct i; simpl; auto. Qed.

Lemma set_nth_app_l {A} i (x : A) l l' :
  i < length l -> set_nth i x (l ++ l') = set_nth i x l ++ l'.
Proof.
  revert i; induction l; simpl; intros i H; [lia|]. destruct i; simpl; auto.
  rewrite IHl by lia. reflexivity.
Qed.

Lemma set_nth_app_r {A} i (x : A) l l' :
  set_nth (length l + i) x (l ++ l') = l ++ set_nth i x l'.
Proof. induction l; simpl; auto. rewrite IHl. reflexivity. Qed.

(** Association lists used for Go maps.  [map_set] replaces, so a key occurs
    at most once; iteration order is never observed by the modelled code. *)
Section Assoc.
  Context {K V : Type} (eqb : K -> K -> bool).
  (** Go maps, e.g. merkletree/pad.go:27 (snapshots), protocol/directory/directory.go:30 (tbs) *)
  Fixpoint map_get (k : K) (m : list (K * V)) : option V :=
    match m with
    | [] => None
    | (k', v) :: m' => if eqb k k' then Some v else map_get k m'
    end.
  (** Go maps, e.g. merkletree/pad.go:27 (snapshots), protocol/directory/directory.go:30 (tbs) *)
  Fixpoint map_del (k : K) (m : list (K * V)) : list (K * V) :=
    match m with
    | [] => []
    | (k', v) :: m' => if eqb k k' then map_del k m' else (k', v) :: map_del k m'
    end.
  (** Go maps, e.g. merkletree/pad.go:27 (snapshots), protocol/directory/directory.go:30 (tbs) *)
  Definition map_set (k : K) (v : V) (m : list (K * V)) : list (K * V) :=
    (k, v) :: map_del k m.

  Hypothesis eqb_spec : forall a b, eqb a b = true <-> a = b.

  Lemma map_get_del_same k m : map_get k (map_del k m) = None.
  Proof.
    induction m as [|[k' v] m IH]; simpl; auto.
    destruct (eqb k k') eqn:E; auto. simpl. rewrite E. exact IH.
  Qed.
  Lemma map_get_del_other k k' m : k <> k' -> map_get k (map_del k' m) = map_get k m.
  Proof.
    intro H. induction m as [|[k0 v] m IH]; simpl; auto.
    destruct (eqb k' k0) eqn:E.
    - apply eqb_spec in E; subst k0. rewrite IH.
      destruct (eqb k k') eqn:E2; auto. apply eqb_spec in E2; congruence.
    - simpl. rewrite IH. reflexivity.
  Qed.
  Lemma map_get_set_same k v m : map_get k (map_set k v m) = Some v.
  Proof. simpl. destruct (eqb k k) eqn:E; auto. rewrite (proj2 (eqb_spec k k)) in E; congruence. Qed.
  Lemma map_get_set_other k k' v m : k <> k' -> map_get k (map_set k' v m) = map_get k m.
  Proof.
    intro H. simpl. destruct (eqb k k') eqn:E.
    - apply eqb_spec in E; congruence.
    - apply map_get_del_other; auto.
  Qed.
End Assoc.

Lemma N_eqb_spec a b : (a =? b)%N = true <-> a = b.
Proof. apply N.eqb_eq. Qed.

(** Cancellation on concatenations of known length. *)
Lemma app_inj_len {A} (a b c d : list A) :
  length a = length c -> a ++ b = c ++ d -> a = c /\ b = d.
Proof.
  revert c; induction a as [|x a IH]; destruct c as [|y c]; simpl; intros L E; try lia; auto.
  injection E as -> E. injection L as L. destruct (IH _ L E) as [-> ->]. auto.
Qed.

Lemma app_inj_len_r {A} (a b c d : list A) :
  length b = length d -> a ++ b = c ++ d -> a = c /\ b = d.
Proof.
  intros L E. apply app_inj_len; auto.
  assert (length (a ++ b) = length (c ++ d)) by congruence.
  rewrite !app_length in H. lia.
Qed.

Lemma index_ok {A} (l : list A) i a : index l i = Ok a <-> nth_error l i = Some a.
Proof. unfold index. destruct (nth_error l i); split; congruence. Qed.

Lemma index_panic {A} (l : list A) i : index l i = Panic <-> length l <= i.
Proof.
  unfold index. destruct (nth_error l i) eqn:E.
  - split; try congruence. intro H. apply nth_error_None in H. congruence.
  - apply nth_error_None in E. tauto.
Qed.
