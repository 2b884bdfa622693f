(** What is said about byte slices (Slices.v): well-formed memory, calls of the
    directory, and a caller that reuses its buffers. *)
From Coq Require Import List NArith Lia Bool Arith.
From Verif Require Import Base Utils Crypto Tree STR PAD Protocol Directory Slices.
Import ListNotations.

(** Memory only grew: every array that existed has the contents it had. *)
(** no line of its own in /repo *)
Definition ext (m m' : mem) : Prop := exists t, m' = m ++ t.

(** A slice that lies within its array. *)
(** no line of its own in /repo: guaranteed by Go *)
Definition vs (m : mem) (s : gs) : Prop :=
  match s with None => True | Some s => sa s < length m /\ so s + sc s <= length (nth (sa s) m []) /\ sl s <= sc s end.

(** Values stored in leaves are never nil (they are made by [append([]byte{}, ...)]). *)
(** merkletree/merkletree.go:137 *)
Fixpoint nn (n : rnode) : Prop :=
  match n with REmpty _ _ => True | RLeaf _ d => rl_value d <> None | RInt _ _ _ l r => nn l /\ nn r end.
(** merkletree/merkletree.go:137, for the trees of a dictionary *)
Definition nn_pad (p : rPAD) : Prop :=
  nn (rt_root (rp_tree p)) /\ nn (rt_root (rs_tree (rp_latest p))) /\ Forall (fun x => nn (rt_root (rs_tree (snd x)))) (rp_snap p).
(** no line of its own in /repo: a directory all of whose slices are valid *)
Definition wf (m : mem) (d : rDir) : Prop := Forall (vs m) (ss_dir d) /\ nn_pad (rd_pad d).

(** What a directory refers to beyond the next Update: keys, policies, trees and signed
    tree roots. *)
(** protocol/directory/directory.go:27-32 without [tbs] *)
Definition kept (d : rDir) : list gs := rq_vrf (rd_pol d) :: ss_pad (rd_pad d).
(** What its temporary bindings refer to. *)
(** protocol/directory/directory.go:30 [tbs] *)
Definition promised (d : rDir) : list gs := flat_map (fun x => ss_tb (snd x)) (rd_tbs d).

(** The hashes and the indices of a tree. *)
(** merkletree/node.go:8-32 [leftHash], [rightHash], [index]; merkletree/merkletree.go:33 [hash] *)
Fixpoint own_node (n : rnode) : list gs :=
  match n with
  | REmpty _ i => [i]
  | RLeaf _ d => [rl_index d]
  | RInt _ lh rh l r => lh :: rh :: own_node l ++ own_node r
  end.
(** merkletree/merkletree.go:30-34 *)
Definition own_tree (t : rtree) : list gs := rt_hash t :: own_node (rt_root t).

(** ** Calls *)

(** protocol/directory/directory.go:70-82, 129, 187, 236, 281, 326; [K] is the type of
    the keys passed: slices, or their contents.  Names are Go strings. *)
Inductive call (K : Type) :=
| CRegister (r : option bytes) (name : bytes) (key : K)
| CLookup (name : bytes)
| CLookupIn (name : bytes) (epoch : N)
| CMonitor (name : bytes) (s e : N)
| CHistory (s e : N)
| CUpdate
| CSetPolicies (deadline : N).
Arguments CRegister {K}. Arguments CLookup {K}. Arguments CLookupIn {K}. Arguments CMonitor {K}. Arguments CHistory {K}.
Arguments CUpdate {K}. Arguments CSetPolicies {K}.

(** no line of its own in /repo: the call as its callee sees it *)
Definition read_call (m : mem) (c : call gs) : call bytes :=
  match c with
  | CRegister r n k => CRegister r n (rd m k)
  | CLookup n => CLookup n
  | CLookupIn n e => CLookupIn n e
  | CMonitor n s e => CMonitor n s e
  | CHistory s e => CHistory s e
  | CUpdate => CUpdate
  | CSetPolicies dl => CSetPolicies dl
  end.
(** no line of its own in /repo: the slices passed in a call *)
Definition args (c : call gs) : list gs := match c with CRegister _ _ k => [k] | _ => [] end.

Section Calls.
  Context {C : Crypto}.
  (** protocol/directory/directory.go:70-345, over contents (Directory.v) *)
  Definition v_call (d : Directory) (c : call bytes) : result (Directory * option Response) :=
    match c with
    | CRegister r n k => do (d, a) <- Register d r n k; Ok (d, Some a)
    | CLookup n => do a <- KeyLookup d n; Ok (d, Some a)
    | CLookupIn n e => do a <- KeyLookupInEpoch d n e; Ok (d, Some a)
    | CMonitor n s e => do a <- Monitor d n s e; Ok (d, Some a)
    | CHistory s e => do a <- GetSTRHistory d s e; Ok (d, Some a)
    | CUpdate => Ok (Directory_Update d, None)
    | CSetPolicies dl => Ok (SetPolicies d dl, None)
    end.
  Variable growth : nat -> nat -> nat.
  (** protocol/directory/directory.go:70-345, over slices (Slices.v) *)
  Definition r_call (d : rDir) (c : call gs) (m : mem) : result (rDir * option rResp * mem) :=
    match c with
    | CRegister r n k => do (d, a, m) <- r_Register growth d r n k m; Ok (d, Some a, m)
    | CLookup n => do (a, m) <- r_KeyLookup d n m; Ok (d, Some a, m)
    | CLookupIn n e => do (a, m) <- r_KeyLookupInEpoch d n e m; Ok (d, Some a, m)
    | CMonitor n s e => do (a, m) <- r_Monitor d n s e m; Ok (d, Some a, m)
    | CHistory s e => do (a, m) <- r_GetSTRHistory d s e m; Ok (d, Some a, m)
    | CUpdate => let '(d, m) := r_Dir_Update growth d m in Ok (d, None, m)
    | CSetPolicies dl => Ok (r_SetPolicies d dl, None, m)
    end.

  (** ** A caller that reuses its buffers *)

  (** The caller allocates buffers, overwrites its own ones except those it lent to the
      directory, and calls.  A key buffer is lent by Register until the next Update. *)
  (** no line of its own in /repo: the program around the directory *)
  Record world := mkW { w_mem : mem; w_dir : rDir; w_own : list nat; w_lent : list nat }.
  (** The caller's buffers are existing arrays; the directory does not keep them, and its
      bindings use only those lent. *)
  (** no line of its own in /repo: the program around the directory *)
  Definition good (w : world) : Prop :=
    wf (w_mem w) (w_dir w) /\ (forall a, In a (w_own w) -> a < length (w_mem w) /\ ~ In a (arrays (kept (w_dir w))) /\
      (In a (arrays (promised (w_dir w))) -> In a (w_lent w))).
  (** no line of its own in /repo: the program around the directory; an event is a call
      as the callee saw it, with its answer as it could be read when the call returned *)
  Inductive step : world -> list (call bytes * option Response) -> world -> Prop :=
  | s_buffer m d own lent b : step (mkW m d own lent) [] (mkW (m ++ [b]) d (length m :: own) lent)
  | s_write m d own lent a off xs : In a own -> ~ In a lent -> off + length xs <= length (nth a m []) ->
      step (mkW m d own lent) [] (mkW (write a off xs m) d own lent)
  | s_call m d own lent c d' o m' : Forall (vs m) (args c) -> r_call d c m = Ok (d', o, m') ->
      step (mkW m d own lent) [(read_call m c, option_map (v_resp m') o)]
           (mkW m' d' own (match c with CUpdate => [] | _ => arrays (args c) ++ lent end)).
  (** no line of its own in /repo: the program around the directory *)
  Inductive session : world -> list (call bytes * option Response) -> world -> Prop :=
  | ss_nil w : session w [] w
  | ss_cons w l w' l' w'' : step w l w' -> session w' l' w'' -> session w (l ++ l') w''.
  (** no line of its own in /repo: the same calls on a directory of contents, where
      there is nothing to alias *)
  Inductive v_session : Directory -> list (call bytes * option Response) -> Directory -> Prop :=
  | vs_nil d : v_session d [] d
  | vs_cons d c o d' l d'' : v_call d c = Ok (d', o) -> v_session d' l d'' -> v_session d ((c, o) :: l) d''.
End Calls.
