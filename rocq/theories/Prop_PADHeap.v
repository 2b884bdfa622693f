(** C78: the dictionary on pointers.  [h_run] runs calls on the pointer-level model
    of PADHeap.v; what a user observes there are [h_GetSTR] (a pointer to a signed
    tree root), [h_str_get] (a lookup through such a pointer) and
    [h_LookupInEpoch]. *)
From Coq Require Import List NArith Lia Bool Arith.
From Verif Require Import Base Utils Crypto Tree TreeSpec STR PAD PADSpec PADFacts PADMain Prop_PAD TreeHeap HeapFacts PADHeap PADHeapFacts.
Import ListNotations.

(** Every history on pointers returns what it returns on values: lookups in every
    epoch; and the [k]-th signed tree root ever issued is there, with its contents,
    and answers lookups with the tree of its own epoch, whether or not it is still
    cached. *)
Theorem C78_pointers_refine_values : forall (C : Crypto) A (ser : A -> bytes) ad sk vk len r1 r2 ops q hist,
  pad_built ser ad sk vk len r1 r2 ops q hist ->
  exists p0 p, h_NewPAD ser ad sk vk len r1 r2 = Ok (Some p0) /\ h_run ser p0 ops = Ok p /\
    (forall key e, h_LookupInEpoch p key e = LookupInEpoch q key e) /\
    (forall key, h_Lookup p key = Lookup q key) /\
    (forall e, exists o, h_GetSTR p e = Ok o /\
       match o with Some k => exists s, nth_error hist k = Some s /\ GetSTR q e = Some s | None => GetSTR q e = None end) /\
    (forall k s, nth_error hist k = Some s ->
       (exists x, nth_error (m_strs (hp_mem p)) k = Some x /\ hs_body x = st_body s /\ hs_ad x = st_ad s) /\
       forall i, h_str_get (hp_mem p) k i = Get (st_tree s) i).
Proof.
  intros C A ser ad sk vk len r1 r2 ops q hist (q0 & iss & N & R & ->).
  destruct (new_refines ser ad sk vk len r1 r2 q0 N) as (p0 & ms0 & EN & R0).
  destruct (run_refines_pad ser ops p0 q0 _ ms0 q iss R0 R) as (p & ms & ER & RR). cbn [app] in RR.
  exists p0, p. split; [exact EN|]. split; [exact ER|]. split; [intros; eapply obs_lookup; exact RR|].
  split; [|split; [intro e; eapply obs_getstr; exact RR|intros k s E; eapply obs_str; [exact RR|exact E]]].
  intro key. unfold h_Lookup, Lookup, index. destruct (Forall2_nth _ _ _ _ _ (pr_strs _ _ _ _ RR) (pr_latest _ _ _ _ RR)) as (la & -> & _ & _ & BL & _).
  cbn [bind]. rewrite BL. eapply obs_lookup. exact RR.
Qed.

(** On pointers, too, no history panics. *)
Theorem C78_history_runs : forall (C : Crypto), CryptoOk C -> forall A (ser : A -> bytes) ad sk vk len r1 r2 ops,
  (N.of_nat (updates ops) < 2 ^ 64)%N ->
  exists p0 p, h_NewPAD ser ad sk vk len (Some r1) (Some r2) = Ok (Some p0) /\ h_run ser p0 ops = Ok p.
Proof.
  intros C OK A ser ad sk vk len r1 r2 ops U. destruct (C16_history_runs C OK A ser ad sk vk len r1 r2 ops U) as (q & hist & B).
  destruct (C78_pointers_refine_values C A ser ad sk vk len _ _ ops q hist B) as (p0 & p & E0 & E & _). eauto.
Qed.

Lemma h_run_app {C : Crypto} {A} (ser : A -> bytes) ops ops' : forall p p1 p2, h_run ser p ops = Ok p1 -> h_run ser p1 ops' = Ok p2 -> h_run ser p (ops ++ ops') = Ok p2.
Proof.
  induction ops as [|op ops IH]; intros p p1 p2 H H'; cbn [h_run app] in *; [injection H as ->; exact H'|].
  destruct (h_step ser p op) as [p3|]; [|discriminate H]. cbn [bind] in *. eauto.
Qed.
Lemma new_needs_entropy {C : Crypto} {A} (ser : A -> bytes) ad sk vk len r1 r2 p : h_NewPAD ser ad sk vk len r1 r2 = Ok (Some p) ->
  exists a b, r1 = Some a /\ r2 = Some b.
Proof.
  unfold h_NewPAD. destruct r1 as [a|]; [|cbn; discriminate]. destruct r2 as [b|]; [eauto|]. cbn [MakeRand].
  destruct (MakeRand (Some a)); [|discriminate]. destruct (hstep ([], []) (FNew (Some a))); cbn [bind]; discriminate.
Qed.
(** A pointer to a signed tree root obtained at any time stays good: whatever is
    called on the dictionary afterwards -- Sets, which change the working tree in
    place, Updates, which rehash it in place and overwrite the list of cached epochs
    in place, evictions -- the signed tree root has the same contents and its tree
    gives the same answer to every lookup. *)
Theorem C78_held_snapshots : forall (C : Crypto), CryptoOk C -> forall A (ser : A -> bytes) ad sk vk len r1 r2 ops ops' p0 p p',
  (N.of_nat (updates (ops ++ ops')) < 2 ^ 64)%N ->
  h_NewPAD ser ad sk vk len r1 r2 = Ok (Some p0) -> h_run ser p0 ops = Ok p -> h_run ser p ops' = Ok p' ->
  forall k x, nth_error (m_strs (hp_mem p)) k = Some x ->
  (exists x', nth_error (m_strs (hp_mem p')) k = Some x' /\ hs_body x' = hs_body x /\ hs_ad x' = hs_ad x) /\
  forall i, h_str_get (hp_mem p') k i = h_str_get (hp_mem p) k i.
Proof.
  intros C OK A ser ad sk vk len r1 r2 ops ops' p0 p p' U N R R' k x Ex.
  destruct (new_needs_entropy ser ad sk vk len r1 r2 p0 N) as (a & b & -> & ->).
  destruct (C16_history_runs C OK A ser ad sk vk len a b (ops ++ ops') U) as (q' & hist' & q0 & iss' & QN & QR & ->).
  assert (SP : exists q iss iss2, pad_run ser q0 ops = Ok (q, iss) /\ pad_run ser q ops' = Ok (q', iss2) /\ iss' = iss ++ iss2).
  { clear - QR. revert q0 iss' QR. induction ops as [|op ops IH]; intros q0 iss' QR; cbn [pad_run app] in *; [exists q0, [], iss'; auto|].
    destruct (pad_step ser q0 op) as [[q1 s]|]; [|discriminate QR]. cbn [bind] in *.
    destruct (pad_run ser q1 (ops ++ ops')) as [[q2 s2]|] eqn:E; [|discriminate QR]. cbn [bind] in QR. injection QR as <- <-.
    destruct (IH _ _ E) as (q & iss & iss2 & E1 & E2 & ->). rewrite E1. cbn [bind]. exists q, (s ++ iss), iss2. rewrite app_assoc. auto. }
  destruct SP as (q & iss & iss2 & Q1 & Q2 & ->).
  destruct (new_refines ser ad sk vk len (Some a) (Some b) q0 QN) as (p00 & ms0 & EN & R0). rewrite N in EN. injection EN as <-.
  destruct (run_refines_pad ser ops p0 q0 _ ms0 q iss R0 Q1) as (p1 & ms1 & ER & R1). rewrite R in ER. injection ER as <-.
  destruct (run_refines_pad ser ops' p q _ ms1 q' iss2 R1 Q2) as (p2 & ms2 & ER2 & R2). rewrite R' in ER2. injection ER2 as <-.
  set (hist := [pd_latest q0] ++ iss) in *. clearbody hist.
  assert (LH : length (m_strs (hp_mem p)) = length hist) by (pose proof (pr_strs _ _ _ _ R1) as F2; clear - F2; induction F2; cbn [length]; congruence).
  destruct (nth_error hist k) as [s|] eqn:Es; [|apply nth_error_None in Es; apply nth_lt in Ex; lia].
  destruct (obs_str p q hist ms1 k s R1 Es) as ((y & Ey & B1 & B2) & G1). rewrite Ex in Ey. injection Ey as <-.
  assert (Es' : nth_error (hist ++ iss2) k = Some s) by (rewrite nth_error_app1 by (eapply nth_lt; exact Es); exact Es).
  destruct (obs_str p' q' (hist ++ iss2) ms2 k s R2 Es') as ((y' & Ey' & B1' & B2') & G2).
  split; [exists y'; split; [exact Ey'|split; congruence]|]. intro i. rewrite G2, G1. reflexivity.
Qed.
(** The cached epochs, as [GetSTR] serves them, are the ones of the value-level model: C20 and C21 carry over. *)

(** ** Instance: a cache of two; the first snapshot is held while it is evicted and
    the working tree changes. *)
Definition ser_ex (a : bytes) : bytes := a.
Definition ops_ex : list (pad_op bytes) := [PSet (Some [x01]) [x61] [x31]; PUpdate None].
Definition ops_ex' : list (pad_op bytes) := [PSet (Some [x02]) [x61] [x32]; PSet (Some [x03]) [x62] [x33]; PUpdate (Some [x09]); PUpdate None; PUpdate None].
Example C78_example :
  match @h_NewPAD ToyCrypto bytes ser_ex [x08] [x01] [x02] 2 (Some [x04]) (Some [x05]) with
  | Ok (Some p0) =>
    match @h_run ToyCrypto bytes ser_ex p0 ops_ex with
    | Ok p => match @h_run ToyCrypto bytes ser_ex p ops_ex' with
      | Ok p' => h_GetSTR p 0 = Ok (Some 0) /\ h_GetSTR p 1 = Ok (Some 1) /\
                 h_GetSTR p' 1 = Ok None /\ h_GetSTR p' 4 = Ok (Some 4) /\ h_GetSTR p' 3 = Ok (Some 3) /\
                 length (elements (hp_loaded p')) = 2 /\ length (m_strs (hp_mem p')) = 5
      | Panic => False end
    | Panic => False end
  | _ => False end.
Proof. vm_compute. auto 8. Qed.

Print Assumptions C78_pointers_refine_values.
Print Assumptions C78_history_runs.
Print Assumptions C78_held_snapshots.
