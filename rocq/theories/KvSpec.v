(** What storage/kv/kv.go:20-28 promises, written down without looking at the
    implementation: "All operations are ... synchronous, atomic and
    linearizable". *)
From Coq Require Import List NArith Bool Arith.
From Verif Require Import Base Storage StorageFacts Kv.
Import ListNotations.

(** The effect a writing call is meant to have: a sequence of puts and deletes
    done at once; a batch that is not the store's own is refused. *)
Definition effect (c : wcall) : option batch :=
  match c with
  | KPut k v => Some [BPut k v]
  | KDelete k => Some [BDel k]
  | KWrite (LevelBatch ops) => Some ops
  | KWrite (OtherBatch _) => None
  end.

(** The value of a key after a sequence of puts and deletes, oldest first. *)
Definition op_key (o : bop) : bytes := match o with BPut k _ => k | BDel k => k end.
Definition op_value (o : bop) : option bytes := match o with BPut _ v => Some v | BDel _ => None end.
Inductive value_after : list bop -> bytes -> option bytes -> Prop :=
| va_never ops k : (forall o, In o ops -> op_key o <> k) -> value_after ops k None
| va_last l o r k : op_key o = k -> (forall o', In o' r -> op_key o' <> k) ->
    value_after (l ++ o :: r) k (op_value o).

(** All puts and deletes that have taken effect, oldest first. *)
Fixpoint done (h : list event) : list bop :=
  match h with
  | [] => []
  | ELin _ b :: r => b ++ done r
  | _ :: r => done r
  end.

(** What may happen after [h]. *)
Definition no_restart (p : list event) := ~ In ERestart p.
Definition no_effect_of (id : nat) (p : list event) := forall b, ~ In (ELin id b) p.

Definition allowed (h : list event) (e : event) : Prop :=
  match e with
  | EInvoke id _ => forall c, ~ In (EInvoke id c) h
  (* a write takes effect once, as a whole, after it was called and before it
     returned and before the next restart; one that returned an error may
     still take effect at the restart, and nothing else happens in between *)
  | ELin id b =>
      exists p1 c p2, h = p1 ++ EInvoke id c :: p2 /\ effect c = Some b /\
        no_restart p2 /\ no_effect_of id p2 /\ ~ In (EReturn id true) p2 /\
        (forall q1 q2, p2 = q1 ++ EReturn id false :: q2 -> forall j b', ~ In (ELin j b') q2)
  (* a call that succeeds has taken effect *)
  | EReturn id true =>
      exists p1 c p2 b, h = p1 ++ EInvoke id c :: p2 /\ effect c = Some b /\
        no_restart p2 /\ (forall r, ~ In (EReturn id r) p2) /\ In (ELin id b) p2
  (* a call that fails has not *)
  | EReturn id false =>
      exists p1 c p2, h = p1 ++ EInvoke id c :: p2 /\
        no_restart p2 /\ (forall r, ~ In (EReturn id r) p2) /\ no_effect_of id p2
  | EGet k r => value_after (done h) k r
  | EIter rg it =>
      (* the entries in range, in strictly ascending order of their keys *)
      (forall i j a b, i < j -> nth_error (it_items it) i = Some a ->
          nth_error (it_items it) j = Some b -> lex_lt (fst a) (fst b)) /\
      (forall k v, In (k, v) (it_items it) <->
          match rg with None => True | Some r => in_range r k end /\ value_after (done h) k (Some v))
  | ERestart => True
  end.

(** A history with its moments of effect, correct at every point. *)
Definition correct (h : list event) : Prop :=
  forall p e q, h = p ++ e :: q -> allowed p e.

(** What is seen of it from the outside. *)
Definition visible (e : event) : bool := match e with ELin _ _ => false | _ => true end.
Definition seen (h : list event) : list event := filter visible h.

(** The store is linearizable: whatever is seen can be explained by letting
    each write happen at one moment. *)
Definition linearizable (tr : list event) : Prop := exists h, seen h = tr /\ correct h.

(** A call that may change key [k]. *)
Definition touches (c : wcall) (k : bytes) : Prop :=
  exists b o, effect c = Some b /\ In o b /\ op_key o = k.
