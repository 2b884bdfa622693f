(** C47 (key ranges), C53 (byte comparison), C54 (file writing). *)
From Coq Require Import List NArith ZArith Lia Bool Arith Relations.
From Verif Require Import Base Storage StorageFacts Extra25519.
Import ListNotations.

(** ** C47: the range of a prefix contains exactly the keys with that prefix,
    for every prefix (also empty and all-0xff ones) and every key. *)
Theorem C47_prefix_range : forall (p k : bytes), in_range (BytesPrefix p) k <-> has_prefix p k.
Proof.
  intros p k. unfold in_range, BytesPrefix; cbn [rg_start rg_limit].
  destruct (incr_shape p) as [(q & c & n & Hp & Hc & ->)|[Hp ->]].
  - split.
    + intros [H1 H2]. rewrite Hp in *. eapply range_prefix; eauto.
    + intros [s ->]. split; [apply lex_le_prefix|].
      rewrite Hp, <- app_assoc. apply lex_lt_app. simpl. apply lex_head. rewrite to_N_succ by auto. lia.
  - split.
    + intros [H1 _]. rewrite Hp in *. apply ff_max; auto.
    + intros [s ->]. split; [apply lex_le_prefix|auto].
Qed.

(** [IncrementKey] is, as documented, the first key greater than all keys with
    the prefix, and nil exactly when there is no such key. *)
Theorem C47_increment_key : forall p : bytes,
  match IncrementKey p with
  | Some l => (forall k, has_prefix p k -> lex_lt k l) /\
              (forall l', (forall k, has_prefix p k -> lex_lt k l') -> lex_le l l')
  | None => forall l', exists k, has_prefix p k /\ lex_le l' k
  end.
Proof.
  intro p. pose proof (C47_prefix_range p) as R. unfold in_range, BytesPrefix in R; cbn [rg_start rg_limit] in R.
  destruct (IncrementKey p) as [l|] eqn:E.
  - split.
    + intros k Hk. apply R in Hk. tauto.
    + intros l' H. destruct (lex_total l l') as [C|[C|C]]; [right; auto|left; auto|exfalso].
      apply (lex_irrefl l'). apply H. apply R. split; auto.
      right. apply H. exists []. rewrite app_nil_r; auto.
  - intro l'. destruct (lex_total p l') as [C|[C|C]].
    + exists l'. split; [apply R; split; [right|]; auto|left; auto].
    + subst l'. exists p. split; [exists []; rewrite app_nil_r|left]; auto.
    + exists p. split; [exists []; rewrite app_nil_r|right]; auto.
Qed.

Example C47_nonvacuous :
  in_range (BytesPrefix [x01; xff]) [x01; xff; x00] /\
  ~ in_range (BytesPrefix [x01; xff]) [x02] /\
  IncrementKey [x01; xff; xff] = Some [x02] /\ IncrementKey [xff] = None.
Proof.
  repeat split.
  - right. apply lex_tail, lex_tail, lex_nil.
  - simpl. vm_compute. apply lex_head. reflexivity.
  - intro H. apply C47_prefix_range in H. destruct H as [s H]. discriminate H.
Qed.

(** ** C53: what the comparison really computes: strictly less, as
    little-endian numbers.  The documented "less or equal" fails on equal
    strings, and only there. *)
Theorem C53_strictly_less : forall a b : bytes, length a = length b ->
  (feBytesLE a b = 1%Z <-> (le_value a < le_value b)%Z) /\
  (feBytesLE a b = 0%Z <-> (le_value b <= le_value a)%Z).
Proof.
  intros a b L. pose proof (loop_state a b L) as H. unfold feBytesLE, cmp_state in *.
  destruct (feBytesLE_loop (combine a b)) as [e g]. cbn [fst snd] in H.
  destruct H as [(H & -> & ->)|[(H & -> & ->)|(H & -> & ->)]].
  - rewrite Z.land_0_r. lia.
  - change (Z.land (Z.land (Z.lnot 0) 1) (-1)) with 1%Z. lia.
  - change (Z.land (Z.land (Z.lnot 0) 1) 0) with 0%Z. lia.
Qed.

Theorem C53_less_or_equal_refuted :
  ~ forall a b : bytes, length a = 32 -> length b = 32 ->
      (feBytesLE a b = 1%Z <-> (le_value a <= le_value b)%Z).
Proof.
  intro H. destruct (H (repeat x00 32) (repeat x00 32) eq_refl eq_refl) as [_ K].
  specialize (K (Z.le_refl _)). revert K. vm_compute. congruence.
Qed.

Example C53_nonvacuous :
  feBytesLE (x05 :: repeat x00 31) (repeat x00 31 ++ [x01]) = 1%Z /\
  feBytesLE (repeat x00 31 ++ [x01]) (x05 :: repeat x00 31) = 0%Z.
Proof. split; reflexivity. Qed.

(** ** C54: at whatever point a call to WriteFile is stopped (return, error or
    crash): an existing path is unchanged and the call, if it returned,
    reported an error; no other path is ever changed; a path that did not
    exist is absent or holds a prefix of the data, and holds all of the data
    if the call returned success.  [s] ranges over every intermediate state,
    so this covers every crash point. *)
Theorem C54_existing_untouched : forall name buf f0 v s,
  f0 name = Some v -> wsteps name buf (WStat, f0) s ->
  (forall q, snd s q = f0 q) /\ (forall ok, fst s = WReturned ok -> ok = false).
Proof.
  intros name buf f0 v s E W.
  assert (D : wdone name buf f0 s).
  { apply clos_rt_rtn1 in W. induction W as [|y z H W IH].
    - split; auto. rewrite E. simpl. auto.
    - eapply wdone_step; eauto. }
  destruct D as [_ D]. rewrite E in D. destruct D as [-> D]. split; auto.
  intros ok H. destruct D as [D|D]; congruence.
Qed.

Theorem C54_new_file : forall name buf f0 s,
  f0 name = None -> wsteps name buf (WStat, f0) s ->
  (forall q, q <> name -> snd s q = f0 q) /\
  (snd s name = None \/ exists n, snd s name = Some (firstn n buf)) /\
  (fst s = WReturned true -> snd s name = Some buf).
Proof.
  intros name buf f0 s E W.
  assert (D : wdone name buf f0 s).
  { apply clos_rt_rtn1 in W. induction W as [|y z H W IH].
    - split; auto. rewrite E. simpl. auto.
    - eapply wdone_step; eauto. }
  destruct D as [D0 D]. rewrite E in D. split; auto.
  destruct (fst s) as [| |n|[|]]; (split; [|try congruence]); try tauto; try discriminate.
  - destruct D; eauto.
  - rewrite D. right. exists (length buf). rewrite firstn_all. reflexivity.
Qed.

(** A call can run to a successful end, and to every prefix. *)
Theorem C54_can_succeed : forall name buf f0, f0 name = None ->
  exists f', wsteps name buf (WStat, f0) (WReturned true, f') /\ f' name = Some buf.
Proof.
  intros name buf f0 E.
  exists (fs_set (fs_set f0 name (Some [])) name (Some (firstn (length buf) buf))). split.
  - eapply rt_trans; [apply rt_step, w_stat_absent; auto|].
    eapply rt_trans; [apply rt_step, w_open|].
    eapply rt_trans; [apply rt_step, w_write with (m := length buf) (v := []); auto; [lia|apply fs_set_same]|].
    apply rt_step, w_done.
  - rewrite fs_set_same, firstn_all. reflexivity.
Qed.

(** The guarantee does not extend to a file created by somebody else between
    the existence check and the opening, nor to a failing [Stat]: the file is
    overwritten and success is reported (check-then-act race). *)
Theorem C54_concurrent_creation_refuted :
  ~ forall name buf (f0 f1 f2 f3 : fs) v,
      (* the call's own first step on f0 *)
      wstep name buf (WStat, f0) (WOpen, f1) ->
      (* meanwhile another process creates the file with contents v *)
      f2 = fs_set f1 name (Some v) ->
      (* the call goes on and returns success *)
      wsteps name buf (WOpen, f2) (WReturned true, f3) ->
      f3 name = Some v.
Proof.
  intro H.
  pose (f0 := (fun _ => None) : fs). pose (name := [x61]). pose (buf := [x62]). pose (v := [x63; x64]).
  pose (f2 := fs_set f0 name (Some v)).
  specialize (H name buf f0 f0 f2 (fs_set (fs_set f2 name (Some [])) name (Some (firstn 1 buf))) v
                (w_stat_absent name buf f0 eq_refl) eq_refl).
  assert (W : wsteps name buf (WOpen, f2)
     (WReturned true, fs_set (fs_set f2 name (Some [])) name (Some (firstn 1 buf)))).
  { eapply rt_trans; [apply rt_step, w_open|].
    eapply rt_trans; [apply rt_step, w_write with (m := 1) (v := []); auto; apply fs_set_same|].
    apply rt_step. apply (w_done name buf). }
  specialize (H W). rewrite fs_set_same in H. discriminate H.
Qed.

Theorem C54_failing_stat_refuted :
  ~ forall name buf (f0 f1 f3 : fs) v, f0 name = Some v ->
      wstep_staterr name buf (WStat, f0) (WOpen, f1) ->
      wsteps name buf (WOpen, f1) (WReturned true, f3) -> f3 name = Some v.
Proof.
  intro H.
  pose (name := [x61]). pose (buf := [x62]). pose (v := [x63; x64]).
  pose (f2 := fs_set (fun _ => None) name (Some v)).
  specialize (H name buf f2 f2 (fs_set (fs_set f2 name (Some [])) name (Some (firstn 1 buf))) v
                eq_refl (w_stat_error name buf f2)).
  assert (W : wsteps name buf (WOpen, f2)
     (WReturned true, fs_set (fs_set f2 name (Some [])) name (Some (firstn 1 buf)))).
  { eapply rt_trans; [apply rt_step, w_open|].
    eapply rt_trans; [apply rt_step, w_write with (m := 1) (v := []); auto; apply fs_set_same|].
    apply rt_step. apply (w_done name buf). }
  specialize (H W). rewrite fs_set_same in H. discriminate H.
Qed.

Print Assumptions C47_prefix_range.
Print Assumptions C53_strictly_less.
Print Assumptions C54_existing_untouched.
