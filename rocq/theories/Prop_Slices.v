(** C93: byte slices are shared, but only as documented here.

    Reading guide.  Slices.v has memory and slices, and the directory over them;
    [v_dir], [v_resp] read a directory and an answer through memory, giving the objects
    of Directory.v; [ss_dir], [ss_resp] list the slices they consist of and [arrays] the
    arrays behind those.  SlicesSpec.v has calls and the caller. *)
From Coq Require Import List NArith Lia Bool Arith.
From Verif Require Import Base Utils Crypto Tree STR PAD Protocol Directory Slices SlicesSpec SlicesFacts SlicesDir.
Import ListNotations.

Lemma wf_start L Lt n0 m d : wf m d -> L = arrays (kept d) -> incl (arrays (promised d)) Lt -> ok_dir L Lt n0 m d.
Proof. intros W -> I. apply wf_ok_dir; [exact W|apply incl_refl|exact I]. Qed.
Lemma arrays_dir d a : In a (arrays (ss_dir d)) <-> In a (arrays (kept d)) \/ In a (arrays (promised d)).
Proof. unfold ss_dir, kept, promised. rewrite app_comm_cons, arrays_app, in_app_iff. reflexivity. Qed.
(** The whole story about one call. *)
Lemma call_all growth {C : Crypto} d c m : wf m d -> Forall (vs m) (args c) ->
  match v_call (v_dir m d) (read_call m c) with
  | Panic => r_call growth d c m = Panic
  | Ok (vd, vo) => exists d' o m', r_call growth d c m = Ok (d', o, m') /\ ext m m' /\ wf m' d' /\ v_dir m' d' = vd /\ option_map (v_resp m') o = vo /\
      (forall a, In a (arrays (kept d')) -> In a (arrays (kept d)) \/ length m <= a) /\
      (forall a, In a (arrays (promised d')) -> In a (arrays (ss_dir d)) \/ In a (arrays (args c)) \/ length m <= a) /\
      (c = CUpdate -> promised d' = []) /\
      (forall r, o = Some r -> Forall (vs m') (ss_resp r) /\
        forall a, In a (arrays (ss_resp r)) -> In a (arrays (ss_dir d)) \/ In a (arrays (args c)) \/ length m <= a)
  end.
Proof.
  intros W FA. set (L := arrays (kept d)). set (Lt := L ++ arrays (promised d) ++ arrays (args c)).
  assert (IL : incl L Lt) by (intros a H; apply in_or_app; left; exact H).
  assert (IP : incl (arrays (promised d)) Lt) by (intros a H; apply in_or_app; right; apply in_or_app; left; exact H).
  assert (IA : incl (arrays (args c)) Lt) by (intros a H; apply in_or_app; right; apply in_or_app; right; exact H).
  assert (LT : forall a, In a Lt \/ length m <= a -> In a (arrays (ss_dir d)) \/ In a (arrays (args c)) \/ length m <= a).
  { intros a [H|H]; [|right; right; exact H]. rewrite arrays_dir. apply in_app_or in H as [H|H]; [left; left; exact H|]. apply in_app_or in H as [H|H]; [left; right; exact H|right; left; exact H]. }
  pose proof (call_done growth L Lt (length m) d c m IL (le_n _) (wf_start L Lt (length m) m d W eq_refl IP) (Gs_of Lt (length m) m (args c) FA IA)) as D.
  destruct (v_call (v_dir m d) (read_call m c)) as [[vd vo]|]; [|exact D].
  destruct D as (d' & o & m' & E & X & OD & OR & TB & VD & VO). exists d', o, m'. split; [exact E|]. split; [exact X|]. split; [eapply ok_dir_vs; exact OD|].
  split; [exact VD|]. split; [exact VO|]. apply ok_dir_iff in OD as (D1 & D2 & _).
  split; [intros a Ia; exact (Gs_arrays L (length m) m' _ a D1 Ia)|]. split; [intros a Ia; apply LT; exact (Gs_arrays Lt (length m) m' _ a D2 Ia)|].
  split; [intro Ec; unfold promised; rewrite (TB Ec); reflexivity|].
  intros r Er. pose proof (ok_resp_G L Lt (length m) m' r IL (OR r Er)) as GR. split; [exact (Gs_vs _ _ _ _ GR)|].
  intros a Ia. apply LT. exact (Gs_arrays Lt (length m) m' _ a GR Ia).
Qed.
Lemma call_ok growth {C : Crypto} d c m d' o m' : wf m d -> Forall (vs m) (args c) -> r_call growth d c m = Ok (d', o, m') ->
  v_call (v_dir m d) (read_call m c) = Ok (v_dir m' d', option_map (v_resp m') o) /\ ext m m' /\ wf m' d' /\
      (forall a, In a (arrays (kept d')) -> In a (arrays (kept d)) \/ length m <= a) /\
      (forall a, In a (arrays (promised d')) -> In a (arrays (ss_dir d)) \/ In a (arrays (args c)) \/ length m <= a) /\
      (c = CUpdate -> promised d' = []) /\
      (forall r, o = Some r -> Forall (vs m') (ss_resp r) /\
        forall a, In a (arrays (ss_resp r)) -> In a (arrays (ss_dir d)) \/ In a (arrays (args c)) \/ length m <= a).
Proof.
  intros W FA E. pose proof (call_all growth d c m W FA) as D. destruct (v_call (v_dir m d) (read_call m c)) as [[vd vo]|]; [|rewrite E in D; discriminate D].
  destruct D as (d1 & o1 & m1 & E1 & X & W' & VD & VO & K & P & U & R). rewrite E in E1. injection E1 as <- <- <-. rewrite VD, VO.
  split; [reflexivity|]. split; [exact X|]. split; [exact W'|]. split; [exact K|]. split; [exact P|]. split; [exact U|exact R].
Qed.

(** ** Creation *)

(** [New] over slices does what [Directory_New] does with their contents, writes into no
    existing array, and the directory refers to the two key buffers and to new arrays. *)
Theorem C93_new : forall growth (C : Crypto) dl vrf sign len useTBs r1 r2 m, vs m vrf -> vs m sign ->
  match Directory_New dl (rd m vrf) (rd m sign) len useTBs r1 r2 with
  | Panic => r_Dir_New growth dl vrf sign len useTBs r1 r2 m = Panic
  | Ok v => exists d m', r_Dir_New growth dl vrf sign len useTBs r1 r2 m = Ok (d, m') /\ ext m m' /\ wf m' d /\ v_dir m' d = v /\
      forall a, In a (arrays (ss_dir d)) -> In a (arrays [vrf; sign]) \/ length m <= a
  end.
Proof.
  intros growth C dl vrf sign len useTBs r1 r2 m VV VS. set (L := arrays [vrf; sign]).
  assert (GG : Forall (G L (length m) m) [vrf; sign]) by (apply Gs_of; [repeat (constructor; try assumption)|apply incl_refl]).
  pose proof (Dir_New_done growth L L (length m) dl vrf sign len useTBs r1 r2 m (le_n _) (Forall_inv GG) (Forall_inv (Forall_inv_tail GG))) as D.
  destruct (Directory_New dl (rd m vrf) (rd m sign) len useTBs r1 r2) as [v|]; [|exact D]. destruct D as (d & m' & E & X & OD & V).
  exists d, m'. split; [exact E|]. split; [exact X|]. split; [eapply ok_dir_vs; exact OD|]. split; [exact V|].
  intros a Ia. apply ok_dir_iff in OD as (D1 & D2 & _). apply arrays_dir in Ia as [Ia|Ia]; [exact (Gs_arrays L (length m) m' _ a D1 Ia)|exact (Gs_arrays L (length m) m' _ a D2 Ia)].
Qed.

(** ** One call *)

(** Every call panics exactly when it does over contents; otherwise the new state and the
    answer, read through memory, are those of Directory.v. *)
Theorem C93_refines : forall growth (C : Crypto) d c m, wf m d -> Forall (vs m) (args c) ->
  match v_call (v_dir m d) (read_call m c) with
  | Panic => r_call growth d c m = Panic
  | Ok (vd, vo) => exists d' o m', r_call growth d c m = Ok (d', o, m') /\ wf m' d' /\ v_dir m' d' = vd /\ option_map (v_resp m') o = vo
  end.
Proof.
  intros growth C d c m W FA. pose proof (call_all growth d c m W FA) as D. destruct (v_call (v_dir m d) (read_call m c)) as [[vd vo]|]; [|exact D].
  destruct D as (d1 & o1 & m1 & E1 & _ & W' & VD & VO & _). exists d1, o1, m1. auto.
Qed.
(** No call writes into an array that existed before it: not into the key passed, not
    into what an earlier answer refers to, not into a snapshot. *)
Theorem C93_never_writes : forall growth (C : Crypto) d c m d' o m', wf m d -> Forall (vs m) (args c) -> r_call growth d c m = Ok (d', o, m') ->
  length m <= length m' /\ forall a, a < length m -> nth a m' [] = nth a m [].
Proof.
  intros growth C d c m d' o m' W FA E. destruct (call_ok _ _ _ _ _ _ _ W FA E) as (_ & X & _). split; [apply ext_len; exact X|].
  intros a La. apply ext_nth; assumption.
Qed.
(** What a call makes the directory refer to: keys, trees, signed roots and policies
    consist of slices it had and of new arrays; only a temporary binding may refer to the
    key buffer passed to [Register], and no binding survives [Update]. *)
Theorem C93_kept : forall growth (C : Crypto) d c m d' o m', wf m d -> Forall (vs m) (args c) -> r_call growth d c m = Ok (d', o, m') ->
  (forall a, In a (arrays (kept d')) -> In a (arrays (kept d)) \/ length m <= a) /\
  (forall a, In a (arrays (promised d')) -> In a (arrays (ss_dir d)) \/ In a (arrays (args c)) \/ length m <= a) /\
  (c = CUpdate -> promised d' = []) /\
  (forall r a, o = Some r -> In a (arrays (ss_resp r)) -> In a (arrays (ss_dir d)) \/ In a (arrays (args c)) \/ length m <= a).
Proof.
  intros growth C d c m d' o m' W FA E. destruct (call_ok _ _ _ _ _ _ _ W FA E) as (_ & _ & _ & K & P & U & R).
  split; [exact K|]. split; [exact P|]. split; [exact U|]. intros r a Er. apply (proj2 (R r Er)).
Qed.
(** A write into an array the directory does not refer to is not seen by it. *)
Theorem C93_other_writes : forall d m a off xs, ~ In a (arrays (ss_dir d)) -> v_dir (write a off xs m) d = v_dir m d.
Proof. intros d m a off xs H. apply v_dir_same. apply write_same. exact H. Qed.

(** ** Histories *)
Lemma step_good growth {C : Crypto} w l w' : good w -> step growth w l w' -> good w'.
Proof.
  intros [W O] ST. destruct ST as [m d own lent b|m d own lent a off xs Io Il B|m d own lent c d' o m' FA E]; cbn [w_mem w_dir w_own w_lent] in *.
  - split.
    + destruct W as [F NN]. split; [|exact NN]. revert F. apply Forall_impl. intro s. apply vs_ext. apply ext_app.
    + cbn [w_mem w_dir w_own w_lent]. rewrite app_length. cbn [length]. intros a [<-|Ia].
      * destruct W as [F _]. split; [lia|]. split.
        { intro I. pose proof (vs_arrays m (ss_dir d) (length m) F (proj2 (arrays_dir _ _) (or_introl I))). lia. }
        { intro I. pose proof (vs_arrays m (ss_dir d) (length m) F (proj2 (arrays_dir _ _) (or_intror I))). lia. }
      * destruct (O a Ia) as (H1 & H2 & H3). split; [lia|]. split; assumption.
  - split; [apply write_wf; [apply O; exact Io|exact B|exact W]|]. cbn [w_mem w_dir w_own w_lent]. rewrite write_len. exact O.
  - destruct (call_ok _ _ _ _ _ _ _ W FA E) as (_ & X & W' & K & P & U & _). split; [exact W'|]. cbn [w_mem w_dir w_own w_lent].
    apply ext_len in X. intros a Ia. destruct (O a Ia) as (H1 & H2 & H3). split; [lia|]. split; [intro I; destruct (K a I) as [I'|I']; [auto|lia]|].
    intro I. destruct c; try (apply in_or_app; destruct (P a I) as [I'|[I'|I']]; [right; apply H3; apply arrays_dir in I' as [I'|I']; [contradiction|exact I']|left; exact I'|lia]).
    rewrite (U eq_refl) in I. destruct I.
Qed.
Lemma step_dir growth {C : Crypto} w l w' : good w -> step growth w l w' ->
  v_session (v_dir (w_mem w) (w_dir w)) l (v_dir (w_mem w') (w_dir w')).
Proof.
  intros [W O] ST. destruct ST as [m d own lent b|m d own lent a off xs Io Il B|m d own lent c d' o m' FA E]; cbn [w_mem w_dir w_own w_lent] in *.
  - rewrite (v_dir_same m (m ++ [b]) d); [constructor|]. apply ext_same; [apply ext_app|exact (proj1 W)].
  - rewrite C93_other_writes; [constructor|]. rewrite arrays_dir. destruct (O a Io) as (_ & H2 & H3). intros [I|I]; [exact (H2 I)|exact (Il (H3 I))].
  - destruct (call_ok _ _ _ _ _ _ _ W FA E) as (V & _). econstructor; [exact V|constructor].
Qed.
Lemma v_session_app {C : Crypto} d l d' l' d'' : v_session d l d' -> v_session d' l' d'' -> v_session d (l ++ l') d''.
Proof. induction 1; intro H'; cbn [app]; [exact H'|]. econstructor; [eassumption|apply IHv_session; exact H']. Qed.
(** A caller may reuse every buffer of its own, a key buffer from the [Update] after the
    registration on: the calls and answers of such a history, and its final state, are
    those of a directory over contents, where nothing is shared. *)
Theorem C93_session : forall growth (C : Crypto) w l w', good w -> session growth w l w' ->
  good w' /\ v_session (v_dir (w_mem w) (w_dir w)) l (v_dir (w_mem w') (w_dir w')).
Proof.
  intros growth C w l w' Gw S. induction S as [w|w l w' l' w'' ST S IH]; [split; [exact Gw|constructor]|].
  pose proof (step_good _ _ _ _ Gw ST) as Gw'. destruct (IH Gw') as [G2 V2]. split; [exact G2|]. eapply v_session_app; [apply (step_dir growth); [exact Gw|exact ST]|exact V2].
Qed.
(** A directory just created is such a start: the caller may go on using every buffer but
    the two keys. *)
Theorem C93_session_start : forall growth (C : Crypto) dl vrf sign len useTBs r1 r2 m d m' own, vs m vrf -> vs m sign ->
  r_Dir_New growth dl vrf sign len useTBs r1 r2 m = Ok (d, m') -> (forall a, In a own -> a < length m /\ ~ In a (arrays [vrf; sign])) ->
  good (mkW m' d own []).
Proof.
  intros growth C dl vrf sign len useTBs r1 r2 m d m' own VV VS E H. pose proof (C93_new growth C dl vrf sign len useTBs r1 r2 m VV VS) as D.
  destruct (Directory_New dl (rd m vrf) (rd m sign) len useTBs r1 r2) as [v|]; [|rewrite E in D; discriminate D].
  destruct D as (d1 & m1 & E1 & X & W & _ & A). rewrite E in E1. injection E1 as <- <-. split; [exact W|]. cbn [w_mem w_dir w_own w_lent].
  apply ext_len in X. intros a Ia. destruct (H a Ia) as [H1 H2]. assert (N : ~ In a (arrays (ss_dir d))) by (intro I; destruct (A a I) as [I'|I']; [contradiction|lia]). rewrite arrays_dir in N. split; [lia|]. tauto.
Qed.

(** An answer is marshalled after the lock is released (application/serverbase.go:241-250).
    Whatever the directory and the caller do in between, it reads as when the call
    returned, as long as the caller does not itself overwrite what the answer refers to. *)
Theorem C93_answer_stable : forall growth (C : Crypto) w l w' r, good w -> session growth w l w' ->
  Forall (vs (w_mem w)) (ss_resp r) -> (forall a, In a (arrays (ss_resp r)) -> ~ In a (w_own w)) ->
  v_resp (w_mem w') r = v_resp (w_mem w) r.
Proof.
  intros growth C w l w' r Gw S. induction S as [w|w l w' l' w'' ST S IH]; intros V H; [reflexivity|].
  pose proof (step_good _ _ _ _ Gw ST) as Gw'. destruct Gw as [W O].
  destruct ST as [m d own lent b|m d own lent a off xs Io Il B|m d own lent c d' o m' FA E]; cbn [w_mem w_dir w_own w_lent] in *.
  - assert (X : ext m (m ++ [b])) by apply ext_app. rewrite IH.
    + apply v_resp_same. apply ext_same; assumption.
    + exact Gw'.
    + revert V. apply Forall_impl. intro s. apply vs_ext. exact X.
    + intros a Ia [<-|Io]; [|exact (H a Ia Io)]. pose proof (vs_arrays _ _ _ V Ia). lia.
  - rewrite IH.
    + apply v_resp_same. apply write_same. intro I. exact (H a I Io).
    + exact Gw'.
    + revert V. apply Forall_impl. intro s. apply write_vs; [apply O; exact Io|exact B].
    + exact H.
  - destruct (call_ok _ _ _ _ _ _ _ W FA E) as (_ & X & _). rewrite IH.
    + apply v_resp_same. apply ext_same; assumption.
    + exact Gw'.
    + revert V. apply Forall_impl. intro s. apply vs_ext. exact X.
    + exact H.
Qed.
(** In particular an answer to any call, if the caller gives away the key buffers it
    passes (the server never touches what it decoded from a request again). *)
Theorem C93_answer_stable_server : forall growth (C : Crypto) m d own lent c d' r m' l w', good (mkW m d own lent) ->
  (forall a, In a own -> ~ In a (arrays (ss_dir d)) /\ ~ In a (arrays (args c))) -> Forall (vs m) (args c) ->
  r_call growth d c m = Ok (d', Some r, m') -> session growth (mkW m' d' own (match c with CUpdate => [] | _ => arrays (args c) ++ lent end)) l w' ->
  v_resp (w_mem w') r = v_resp m' r.
Proof.
  intros growth C m d own lent c d' r m' l w' Gw H FA E S. pose proof (step_good growth _ _ _ Gw (s_call growth _ _ _ _ _ _ _ _ FA E)) as Gw'.
  destruct (call_ok _ _ _ _ _ _ _ (proj1 Gw) FA E) as (_ & _ & _ & _ & _ & _ & R). destruct (R r eq_refl) as [V A].
  refine (C93_answer_stable growth C _ l w' r Gw' S V _). cbn [w_own]. intros a Ia Io. destruct (H a Io) as [H1 H2]. destruct (A a Ia) as [I|[I|I]]; [contradiction|contradiction|].
  destruct (proj2 Gw a Io) as [Lt _]. exact (Nat.lt_irrefl _ (Nat.lt_le_trans _ _ _ Lt I)).
Qed.

(** ** The tree *)

(** [MerkleTree.Set] copies the value and keeps the index buffer: afterwards the tree
    refers to what it referred to, to the index buffer, and to new arrays; and it
    overwrites nothing. *)
Theorem C93_tree_set : forall growth (C : Crypto) t r idx key value m, Forall (vs m) (ss_tree t) -> nn (rt_root t) -> vs m idx -> vs m value ->
  match Set_ (v_tree m t) r (rd m idx) key (rd m value) with
  | Panic => r_Set growth t r idx key value m = Panic
  | Ok o => exists o' m', r_Set growth t r idx key value m = Ok (o', m') /\ ext m m' /\ option_map (v_tree m') o' = o /\
      forall t', o' = Some t' -> Forall (vs m') (ss_tree t') /\ nn (rt_root t') /\
        forall a, In a (arrays (ss_tree t')) -> In a (arrays (ss_tree t)) \/ In a (arrays [idx]) \/ length m <= a
  end.
Proof.
  intros growth C t r idx key value m F NN VI VV. set (L := arrays (ss_tree t) ++ arrays [idx]).
  assert (OT : ok_tree L (length m) m t) by (split; [apply Gs_of; [exact F|intros a H; apply in_or_app; left; exact H]|exact NN]).
  assert (GI : G L (length m) m idx) by (apply G_of; [exact VI|intros a H; apply in_or_app; right; exact H]).
  pose proof (Set_done growth L (length m) t r idx key value m (le_n _) OT GI VV) as D.
  destruct (Set_ (v_tree m t) r (rd m idx) key (rd m value)) as [o|]; [|exact D]. destruct D as (o' & m' & E & X & D). exists o', m'.
  split; [exact E|]. split; [exact X|]. destruct o' as [t'|]; cbn [option_map]; [|split; [symmetry; exact D|discriminate]]. destruct D as [[F' N'] ->].
  split; [reflexivity|]. intros t0 H. injection H as <-. split; [exact (Gs_vs _ _ _ _ F')|]. split; [exact N'|].
  intros a Ia. destruct (Gs_arrays L (length m) m' _ a F' Ia) as [H|H]; [|right; right; exact H]. apply in_app_or in H as [H|H]; [left; exact H|right; left; exact H].
Qed.
(** [Get] and the operations of a dictionary: nothing is overwritten, and a path refers to
    the arrays of the tree, the lookup index and new arrays. *)
Theorem C93_tree_get : forall t lookup m, Forall (vs m) (ss_tree t) -> nn (rt_root t) -> vs m lookup ->
  match Get (v_tree m t) (rd m lookup) with
  | Panic => r_Get t lookup m = Panic
  | Ok v => exists a m', r_Get t lookup m = Ok (a, m') /\ ext m m' /\ v_ap m' a = v /\
      forall x, In x (arrays (ss_ap a)) -> In x (arrays (ss_tree t)) \/ In x (arrays [lookup]) \/ length m <= x
  end.
Proof.
  intros t lookup m F NN VL. set (L := arrays (ss_tree t) ++ arrays [lookup]).
  assert (OT : ok_tree L (length m) m t) by (split; [apply Gs_of; [exact F|intros a H; apply in_or_app; left; exact H]|exact NN]).
  assert (GI : G L (length m) m lookup) by (apply G_of; [exact VL|intros a H; apply in_or_app; right; exact H]).
  pose proof (Get_done L (length m) t lookup m (le_n _) OT GI) as D. destruct (Get (v_tree m t) (rd m lookup)) as [v|]; [|exact D].
  destruct D as (a & m' & E & X & F' & V). exists a, m'. split; [exact E|]. split; [exact X|]. split; [exact V|].
  intros x Ix. destruct (Gs_arrays L (length m) m' _ x F' Ix) as [H|H]; [|right; right; exact H]. apply in_app_or in H as [H|H]; [left; exact H|right; left; exact H].
Qed.
Lemma copy_new growth k s m s' m' : k <= length m -> vs m s -> copy_of growth s m = (s', m') ->
  ext m m' /\ k <= length m' /\ forall a, In a (arrays [s']) -> k <= a.
Proof.
  intros N V E. destruct (copy_of_eq growth m s s' m' V E) as (X & _ & _ & A & _). split; [exact X|]. apply ext_len in X. split; [lia|].
  intros a Ia. apply A in Ia. lia.
Qed.
Lemma arrays_cons s l a : In a (arrays (s :: l)) <-> In a (arrays [s]) \/ In a (arrays l).
Proof. change (s :: l) with ([s] ++ l). rewrite arrays_app, in_app_iff. reflexivity. Qed.
Lemma vs_all m m' l : ext m m' -> Forall (vs m) l -> Forall (vs m') l.
Proof. intro X. apply Forall_impl. intro s. apply vs_ext. exact X. Qed.
Lemma clone_new growth k n : forall m n' m', k <= length m -> Forall (vs m) (ss_node n) -> r_clone growth n m = (n', m') ->
  ext m m' /\ k <= length m' /\ forall a, In a (arrays (own_node n')) -> k <= a.
Proof.
  induction n as [lvl i|lvl d|lvl lh rh l IHl r IHr]; intros m n' m' N F; cbn [r_clone ss_node] in *.
  - destruct (copy_of growth i m) as [i' m1] eqn:E. intro H. injection H as <- <-. exact (copy_new _ _ _ _ _ _ N (Forall_inv F) E).
  - unfold ss_leaf in F. apply Forall_cons_iff in F as [_ F]. apply Forall_cons_iff in F as [F _].
    destruct (copy_of growth (rl_index d) m) as [i' m1] eqn:E. intro H. injection H as <- <-. exact (copy_new _ _ _ _ _ _ N F E).
  - apply Forall_cons_iff in F as [F1 F]. apply Forall_cons_iff in F as [F2 F]. apply Forall_app in F as [F3 F4].
    destruct (copy_of growth lh m) as [lh' m1] eqn:E1. destruct (copy_new _ _ _ _ _ _ N F1 E1) as (X1 & N1 & A1).
    destruct (copy_of growth rh m1) as [rh' m2] eqn:E2. destruct (copy_new _ _ _ _ _ _ N1 (vs_ext _ _ _ X1 F2) E2) as (X2 & N2 & A2).
    pose proof (ext_trans _ _ _ X1 X2) as X12.
    destruct (r_clone growth l m2) as [l' m3] eqn:E3. destruct (IHl _ _ _ N2 (vs_all _ _ _ X12 F3) E3) as (X3 & N3 & A3).
    pose proof (ext_trans _ _ _ X12 X3) as X13.
    destruct (r_clone growth r m3) as [r' m4] eqn:E4. destruct (IHr _ _ _ N3 (vs_all _ _ _ X13 F4) E4) as (X4 & N4 & A4).
    intro H. injection H as <- <-. split; [exact (ext_trans _ _ _ X13 X4)|]. split; [exact N4|]. intros a Ia. cbn [own_node] in Ia.
    apply arrays_cons in Ia as [Ia|Ia]; [exact (A1 a Ia)|]. apply arrays_cons in Ia as [Ia|Ia]; [exact (A2 a Ia)|].
    rewrite arrays_app in Ia. apply in_app_or in Ia as [Ia|Ia]; [exact (A3 a Ia)|exact (A4 a Ia)].
Qed.
(** A clone has its own indices and hashes, in new arrays, and shares values, salts,
    commitments and the nonce; taking it overwrites nothing. *)
Theorem C93_tree_clone : forall growth t m t' m', Forall (vs m) (ss_tree t) -> nn (rt_root t) -> r_Clone growth t m = (t', m') ->
  ext m m' /\ v_tree m' t' = Clone (v_tree m t) /\ (forall a, In a (arrays (ss_tree t')) -> In a (arrays (ss_tree t)) \/ length m <= a) /\
  forall a, In a (arrays (own_tree t')) -> length m <= a.
Proof.
  intros growth t m t' m' F NN E. set (L := arrays (ss_tree t)).
  assert (OT : ok_tree L (length m) m t) by (split; [apply Gs_of; [exact F|apply incl_refl]|exact NN]).
  destruct (Clone_done growth L (length m) t m t' m' (le_n _) OT E) as (X & [F' _] & V). split; [exact X|]. split; [exact V|].
  split; [intros a Ia; exact (Gs_arrays L (length m) m' _ a F' Ia)|].
  unfold ss_tree in F. apply Forall_cons_iff in F as [_ F]. apply Forall_cons_iff in F as [F1 F2]. unfold r_Clone in E.
  destruct (r_clone growth (rt_root t) m) as [n' m1] eqn:E1. destruct (clone_new _ _ _ _ _ _ (le_n _) F2 E1) as (X1 & N1 & A1).
  destruct (copy_of growth (rt_hash t) m1) as [h' m2] eqn:E2. destruct (copy_new _ _ _ _ _ _ N1 (vs_ext _ _ _ X1 F1) E2) as (_ & _ & A2).
  injection E as <- <-. intros a Ia. unfold own_tree in Ia. cbn [rt_hash rt_root] in Ia. apply arrays_cons in Ia as [Ia|Ia]; [exact (A2 a Ia)|exact (A1 a Ia)].
Qed.

(** ** Buffers that must not be reused *)

(** Concrete memory: a VRF key, a signing key, a key to register; arrays grow to twice
    their capacity. *)
Definition ex_growth (c n : nat) : nat := 2 * c.
Definition ex_mem : mem := [[x01; x02]; [x03; x04]; [x61; x62; x63]].
Definition buf (a n : nat) : gs := Some (mkS a 0 n n).
Definition ex_bob : bytes := [x62; x6f; x62].
Definition ex_new : rDir * mem := ltac:(let v := eval vm_compute in (r_Dir_New (C := ToyCrypto) ex_growth 10 (buf 0 2) (buf 1 2) 4 true (Some [x07]) (Some [x08]) ex_mem) in
  match v with Ok ?w => exact w end).
Lemma ex_new_eq : r_Dir_New (C := ToyCrypto) ex_growth 10 (buf 0 2) (buf 1 2) 4 true (Some [x07]) (Some [x08]) ex_mem = Ok ex_new.
Proof. vm_cast_no_check (eq_refl (Ok ex_new)). Qed.
Lemma ex_new_good : good (mkW (snd ex_new) (fst ex_new) [2] []).
Proof.
  refine (C93_session_start ex_growth ToyCrypto 10 (buf 0 2) (buf 1 2) 4 true (Some [x07]) (Some [x08]) ex_mem _ _ [2] _ _ _ _).
  - cbn. lia.
  - cbn. lia.
  - exact ex_new_eq.
  - intros a [<-|[]]. cbn. split; [lia|]. intros [H|[H|[]]]; discriminate H.
Qed.
Definition ex_reg : rDir * option rResp * mem := ltac:(let v := eval vm_compute in (r_call (C := ToyCrypto) ex_growth (fst ex_new) (CRegister (Some [x09]) ex_bob (buf 2 3)) (snd ex_new)) in
  match v with Ok ?w => exact w end).
Lemma ex_reg_eq : r_call (C := ToyCrypto) ex_growth (fst ex_new) (CRegister (Some [x09]) ex_bob (buf 2 3)) (snd ex_new) = Ok ex_reg.
Proof. vm_cast_no_check (eq_refl (Ok ex_reg)). Qed.
Definition ex_upd : rDir * option rResp * mem := ltac:(let v := eval vm_compute in (r_call (C := ToyCrypto) ex_growth (fst (fst ex_reg)) CUpdate (snd ex_reg)) in
  match v with Ok ?w => exact w end).
Lemma ex_upd_eq : r_call (C := ToyCrypto) ex_growth (fst (fst ex_reg)) CUpdate (snd ex_reg) = Ok ex_upd.
Proof. vm_cast_no_check (eq_refl (Ok ex_upd)). Qed.
Definition ex_look : rDir * option rResp * mem := ltac:(let v := eval vm_compute in (r_call (C := ToyCrypto) ex_growth (fst (fst ex_upd)) (CLookup ex_bob) (snd ex_upd)) in
  match v with Ok ?w => exact w end).
Lemma ex_look_eq : r_call (C := ToyCrypto) ex_growth (fst (fst ex_upd)) (CLookup ex_bob) (snd ex_upd) = Ok ex_look.
Proof. vm_cast_no_check (eq_refl (Ok ex_look)). Qed.

Lemma triple {A B D} (x : A * B * D) : x = (fst (fst x), snd (fst x), snd x).
Proof. destruct x as [[? ?] ?]. reflexivity. Qed.
Lemma ex_reg_wf : wf (snd ex_reg) (fst (fst ex_reg)).
Proof.
  assert (E : r_call (C := ToyCrypto) ex_growth (fst ex_new) (CRegister (Some [x09]) ex_bob (buf 2 3)) (snd ex_new) = Ok (fst (fst ex_reg), snd (fst ex_reg), snd ex_reg))
    by (rewrite <- triple; exact ex_reg_eq).
  assert (FA : Forall (vs (snd ex_new)) (args (CRegister (Some [x09]) ex_bob (buf 2 3)))) by (constructor; [cbn; lia|constructor]).
  destruct (call_ok _ _ _ _ _ _ _ (proj1 ex_new_good) FA E) as (_ & _ & W & _). exact W.
Qed.
Lemma ex_upd_wf : wf (snd ex_upd) (fst (fst ex_upd)).
Proof.
  assert (E : r_call (C := ToyCrypto) ex_growth (fst (fst ex_reg)) CUpdate (snd ex_reg) = Ok (fst (fst ex_upd), snd (fst ex_upd), snd ex_upd))
    by (rewrite <- triple; exact ex_upd_eq).
  destruct (call_ok ex_growth (fst (fst ex_reg)) CUpdate _ _ _ _ ex_reg_wf (Forall_nil _) E) as (_ & _ & W & _). exact W.
Qed.

(** The value at the end of the first path of an answer, its binding, its first signed
    tree root. *)
Definition answer_value (r : Response) : option bytes :=
  match r_df r with
  | Some (DProof (Some p)) => match dp_ap p with Some ap :: _ => match ap_leaf ap with Some n => pn_value n | None => None end | _ => None end
  | _ => None
  end.
Definition answer_tb (r : Response) : option TemporaryBinding :=
  match r_df r with Some (DProof (Some p)) => dp_tb p | _ => None end.
Definition answer_str (r : Response) : option DirSTR :=
  match r_df r with Some (DProof (Some p)) => match dp_str p with s :: _ => s | _ => None end | _ => None end.
(** The binding of an answer is correctly signed, for the signed tree root of the answer. *)
Definition tb_signed {C : Crypto} (pk : bytes) (r : Response) : bool :=
  match answer_tb r, answer_str r with
  | Some tb, Some s => match d_body s with Some b => sign_verify pk (TB_Serialize tb (s_sig b)) (tb_sig tb) | None => false end
  | _, _ => false
  end.
(** The signed tree root of an answer is correctly signed. *)
Definition str_signed {C : Crypto} (pk : bytes) (r : Response) : bool :=
  match answer_str r with
  | Some s => match d_body s, DirSTR_Serialize s with Some b, Ok x => sign_verify pk x (s_sig b) | _, _ => false end
  | None => false
  end.

(** A key buffer overwritten between [Register] and [Update]: the binding the directory
    then serves carries other bytes than were signed, while the tree has the right ones. *)
Theorem C93_key_buffer_refuted : exists growth (C : Crypto) m d name key rnd d1 r1 m1 a x pk,
  CryptoOk C /\ wf m d /\ vs m key /\ pk = sign_pub (rd m (rp_sign (rd_pad d))) /\ In a (arrays [key]) /\
  r_call growth d (CRegister rnd name key) m = Ok (d1, Some r1, m1) /\ tb_signed pk (v_resp m1 r1) = true /\
  match r_call growth d1 (CLookup name) m1, r_call growth d1 (CLookup name) (write a 0 [x] m1) with
  | Ok (_, Some r2, m2), Ok (_, Some r3, m3) =>
      tb_signed pk (v_resp m2 r2) = true /\ answer_tb (v_resp m3 r3) <> None /\ tb_signed pk (v_resp m3 r3) = false /\
      (* the very answer to the registration changes too, if it was not marshalled yet *)
      tb_signed pk (v_resp m3 r1) = false
  | _, _ => False
  end.
Proof.
  destruct ex_reg as [[d1 o1] m1] eqn:E. pose proof ex_reg_eq as R. rewrite E in R.
  destruct o1 as [r1|]; [|exfalso; assert (H : match snd (fst ex_reg) with Some _ => true | None => false end = true) by (vm_compute; reflexivity); rewrite E in H; discriminate H].
  exists ex_growth, ToyCrypto, (snd ex_new), (fst ex_new), ex_bob, (buf 2 3), (Some [x09]), d1, r1, m1, 2, x00, (sign_pub (Crypto := ToyCrypto) (rd (snd ex_new) (rp_sign (rd_pad (fst ex_new))))).
  split; [exact ToyCrypto_ok|]. split; [exact (proj1 ex_new_good)|]. split; [cbn; lia|]. split; [reflexivity|]. split; [left; reflexivity|]. split; [exact R|].
  set (pk := @sign_pub _ _).
  assert (H : match ex_reg with (d1, Some r1, m1) => tb_signed (C := ToyCrypto) pk (v_resp m1 r1) && match r_call (C := ToyCrypto) ex_growth d1 (CLookup ex_bob) m1, r_call (C := ToyCrypto) ex_growth d1 (CLookup ex_bob) (write 2 0 [x00] m1) with
      | Ok (_, Some r2, m2), Ok (_, Some r3, m3) => tb_signed (C := ToyCrypto) pk (v_resp m2 r2) && (match answer_tb (v_resp m3 r3) with Some _ => true | None => false end) && negb (tb_signed (C := ToyCrypto) pk (v_resp m3 r3)) && negb (tb_signed (C := ToyCrypto) pk (v_resp m3 r1))
      | _, _ => false end | _ => false end = true) by (vm_compute; reflexivity).
  rewrite E in H. clearbody pk. apply andb_true_iff in H as [H1 H]. split; [exact H1|].
  destruct (r_call ex_growth d1 (CLookup ex_bob) m1) as [[[d2 [r2|]] m2]|]; try discriminate H.
  destruct (r_call ex_growth d1 (CLookup ex_bob) (write 2 0 [x00] m1)) as [[[d3 [r3|]] m3]|]; try discriminate H.
  apply andb_true_iff in H as [H H4]. apply andb_true_iff in H as [H H3]. apply andb_true_iff in H as [H2 H].
  split; [exact H2|]. split; [intro N; rewrite N in H; discriminate H|]. split; [apply negb_true_iff; exact H3|apply negb_true_iff; exact H4].
Qed.
(** The paths of answers share the arrays of the tree: whoever overwrites the value in an
    answer changes the directory, and what it answers from then on. *)
Theorem C93_answer_write_refuted : exists growth (C : Crypto) m d name r m1 leaf a x,
  CryptoOk C /\ wf m d /\ r_call growth d (CLookup name) m = Ok (d, Some (RProof ReqSuccess [leaf] [rp_latest (rd_pad d)] None), m1) /\
  r = RProof ReqSuccess [leaf] [rp_latest (rd_pad d)] None /\
  match ra_leaf leaf with Some n => arrays [rn_value n] = [a] | None => False end /\
  v_dir (write a 0 [x] m1) d <> v_dir m1 d /\
  match r_call growth d (CLookup name) (write a 0 [x] m1) with
  | Ok (_, Some r2, m2) => answer_value (v_resp m1 r) <> None /\ answer_value (v_resp m2 r2) <> answer_value (v_resp m1 r)
  | _ => False
  end.
Proof.
  destruct ex_look as [[d1 o1] m1] eqn:E. pose proof ex_look_eq as R. rewrite E in R.
  pose proof ex_upd_wf as W.
  assert (D1 : d1 = fst (fst ex_upd)).
  { change d1 with (fst (fst (d1, o1, m1))). rewrite <- E. vm_compute. reflexivity. }
  subst d1.
  assert (H : match snd (fst ex_look) with Some (RProof _ [leaf] [s] None) => match ra_leaf leaf with Some (mkRPN _ _ (Some sl) _ _) => Some (leaf, s, sa sl) | _ => None end | _ => None end <> None) by (vm_compute; discriminate).
  rewrite E in H. cbn [fst snd] in H. destruct o1 as [[e|e aps strs tb|strs]|]; try congruence. destruct aps as [|leaf [|? ?]]; try congruence. destruct strs as [|s [|? ?]]; try congruence.
  destruct tb; [congruence|]. destruct (ra_leaf leaf) as [[lvl ix [sl|] em co]|] eqn:EL; try congruence. clear H.
  assert (ES : s = rp_latest (rd_pad (fst (fst ex_upd)))).
  { assert (H : match snd (fst ex_look) with Some (RProof _ _ [s] _) => s = rp_latest (rd_pad (fst (fst ex_upd))) | _ => False end) by (vm_compute; reflexivity).
    rewrite E in H. exact H. }
  assert (EE : e = ReqSuccess).
  { assert (H : match snd (fst ex_look) with Some (RProof e _ _ _) => e = ReqSuccess | _ => False end) by (vm_compute; reflexivity). rewrite E in H. exact H. }
  subst s e.
  exists ex_growth, ToyCrypto, (snd ex_upd), (fst (fst ex_upd)), ex_bob, (RProof ReqSuccess [leaf] [rp_latest (rd_pad (fst (fst ex_upd)))] None), m1, leaf, (sa sl), x00.
  split; [exact ToyCrypto_ok|]. split; [exact W|]. split; [exact R|]. split; [reflexivity|]. rewrite EL. split; [reflexivity|].
  assert (H : match ex_look with (d, Some (RProof _ [leaf] _ _ as r), m1) =>
      match ra_leaf leaf with Some (mkRPN _ _ (Some sl) _ _) =>
        match leaves (t_root (pd_tree (dr_pad (v_dir (write (sa sl) 0 [x00] m1) d)))), leaves (t_root (pd_tree (dr_pad (v_dir m1 d)))) with
        | x :: _, y :: _ => negb (beq (l_value x) (l_value y)) | _, _ => false end &&
        match r_call (C := ToyCrypto) ex_growth d (CLookup ex_bob) (write (sa sl) 0 [x00] m1) with
        | Ok (_, Some r2, m2) => match answer_value (v_resp m1 r), answer_value (v_resp m2 r2) with Some x, Some y => negb (beq x y) | _, _ => false end
        | _ => false end
      | _ => false end | _ => false end = true) by (vm_compute; reflexivity).
  rewrite E in H. rewrite EL in H. set (d := fst (fst ex_upd)) in *. clearbody d. apply andb_true_iff in H as [H1 H2]. split.
  - intro N. rewrite N in H1. destruct (leaves (t_root (pd_tree (dr_pad (v_dir m1 d))))) as [|y ys]; [discriminate H1|]. rewrite beq_refl in H1. discriminate H1.
  - destruct (r_call ex_growth d (CLookup ex_bob) (write (sa sl) 0 [x00] m1)) as [[[d2 [r2|]] m2]|]; try discriminate H2.
    destruct (answer_value (v_resp m1 _)) as [x|]; [|discriminate H2]. split; [discriminate|]. intro N. rewrite N in H2. rewrite beq_refl in H2. discriminate H2.
Qed.
(** The signing key given to [New] is kept as it is passed: clearing the buffer afterwards
    makes the directory sign the next root with other bytes as key. *)
Theorem C93_signing_key_buffer_refuted : exists growth (C : Crypto) dl vrf sign len r1 r2 m d m1 a x name,
  CryptoOk C /\ vs m vrf /\ vs m sign /\ In a (arrays [sign]) /\ r_Dir_New growth dl vrf sign len true r1 r2 m = Ok (d, m1) /\
  match r_call growth d CUpdate m1, r_call growth d CUpdate (write a 0 [x] m1) with
  | Ok (d2, _, m2), Ok (d3, _, m3) =>
      match r_call growth d2 (CLookup name) m2, r_call growth d3 (CLookup name) m3 with
      | Ok (_, Some r2, m4), Ok (_, Some r3, m5) =>
          str_signed (sign_pub (rd m sign)) (v_resp m4 r2) = true /\ str_signed (sign_pub (rd m sign)) (v_resp m5 r3) = false
      | _, _ => False
      end
  | _, _ => False
  end.
Proof.
  destruct ex_new as [d m1] eqn:E. pose proof ex_new_eq as R. rewrite E in R.
  exists ex_growth, ToyCrypto, 10%N, (buf 0 2), (buf 1 2), 4, (Some [x07]), (Some [x08]), ex_mem, d, m1, 1, x00, ex_bob.
  split; [exact ToyCrypto_ok|]. split; [cbn; lia|]. split; [cbn; lia|]. split; [left; reflexivity|]. split; [exact R|]. set (pk := @sign_pub _ _).
  assert (H : match r_call (C := ToyCrypto) ex_growth (fst ex_new) CUpdate (snd ex_new), r_call (C := ToyCrypto) ex_growth (fst ex_new) CUpdate (write 1 0 [x00] (snd ex_new)) with
      | Ok (d2, _, m2), Ok (d3, _, m3) =>
        match r_call (C := ToyCrypto) ex_growth d2 (CLookup ex_bob) m2, r_call (C := ToyCrypto) ex_growth d3 (CLookup ex_bob) m3 with
        | Ok (_, Some r2, m4), Ok (_, Some r3, m5) => str_signed (C := ToyCrypto) pk (v_resp m4 r2) && negb (str_signed (C := ToyCrypto) pk (v_resp m5 r3))
        | _, _ => false end
      | _, _ => false end = true) by (vm_compute; reflexivity).
  rewrite E in H. cbn [fst snd] in H. clearbody pk.
  destruct (r_call ex_growth d CUpdate m1) as [[[d2 o2] m2]|]; [|discriminate H].
  destruct (r_call ex_growth d CUpdate (write 1 0 [x00] m1)) as [[[d3 o3] m3]|]; [|discriminate H].
  destruct (r_call ex_growth d2 (CLookup ex_bob) m2) as [[[d4 [r4|]] m4]|]; try discriminate H.
  destruct (r_call ex_growth d3 (CLookup ex_bob) m3) as [[[d5 [r5|]] m5]|]; try discriminate H.
  apply andb_true_iff in H as [H1 H2]. split; [exact H1|apply negb_true_iff; exact H2].
Qed.
(** [MerkleTree.Set] keeps the index buffer: overwriting it makes the entry unreachable. *)
Theorem C93_index_buffer_refuted : exists growth (C : Crypto) m r0 r t m1 idx key value t' m2 a x,
  CryptoOk C /\ r_New growth r0 m = Some (t, m1) /\ vs m1 idx /\ vs m1 value /\ In a (arrays [idx]) /\
  r_Set growth t r idx key value m1 = Ok (Some t', m2) /\
  match Get (v_tree m2 t') (rd m1 idx), Get (v_tree (write a 0 [x] m2) t') (rd m1 idx) with
  | Ok ap, Ok ap' =>
      option_map pn_value (ap_leaf ap) = Some (Some (rd m1 value)) /\ option_map pn_value (ap_leaf ap') = Some None
  | _, _ => False
  end.
Proof.
  set (m := [[x80; x01]; [x41]] : mem).
  set (t := ltac:(let v := eval vm_compute in (r_New (C := ToyCrypto) ex_growth (Some [x07]) m) in match v with Some (?t, _) => exact t end)).
  set (m1 := ltac:(let v := eval vm_compute in (r_New (C := ToyCrypto) ex_growth (Some [x07]) m) in match v with Some (_, ?m1) => exact m1 end)).
  set (t' := ltac:(let v := eval vm_compute in (r_Set (C := ToyCrypto) ex_growth t (Some [x09]) (buf 0 2) ex_bob (buf 1 1) m1) in match v with Ok (Some ?t, _) => exact t end)).
  set (m2 := ltac:(let v := eval vm_compute in (r_Set (C := ToyCrypto) ex_growth t (Some [x09]) (buf 0 2) ex_bob (buf 1 1) m1) in match v with Ok (_, ?m1) => exact m1 end)).
  exists ex_growth, ToyCrypto, m, (Some [x07]), (Some [x09]), t, m1, (buf 0 2), ex_bob, (buf 1 1), t', m2, 0, x00.
  split; [exact ToyCrypto_ok|]. split; [vm_compute; reflexivity|]. split; [cbn; lia|]. split; [cbn; lia|]. split; [left; reflexivity|].
  split; [vm_compute; reflexivity|]. vm_compute. split; reflexivity.
Qed.

(** ** The hypotheses are met *)

(** The caller registers the key in buffer 2, calls [Update], overwrites the buffer,
    allocates another, and looks the name up: the answer has the registered key. *)
Example C93_example :
  exists w l, session (C := ToyCrypto) ex_growth (mkW (snd ex_new) (fst ex_new) [2] []) l w /\ length l = 3 /\
    match l with
    | [_; _; (CLookup n, Some r)] => n = ex_bob /\ answer_value r = Some [x61; x62; x63]
    | _ => False
    end /\ rd (w_mem w) (buf 2 3) = [x00; x00; x00].
Proof.
  set (m3 := write 2 0 [x00; x00; x00] (snd ex_upd)). set (m4 := m3 ++ [[x41; x42]]).
  assert (L : exists d' o m5, r_call (C := ToyCrypto) ex_growth (fst (fst ex_upd)) (CLookup ex_bob) m4 = Ok (d', Some o, m5) /\
    answer_value (v_resp m5 o) = Some [x61; x62; x63] /\ rd m5 (buf 2 3) = [x00; x00; x00]).
  { assert (H : match r_call (C := ToyCrypto) ex_growth (fst (fst ex_upd)) (CLookup ex_bob) m4 with
        | Ok (_, Some o, m5) => match answer_value (v_resp m5 o) with Some v => beq v [x61; x62; x63] && beq (rd m5 (buf 2 3)) [x00; x00; x00] | None => false end
        | _ => false end = true) by (vm_compute; reflexivity).
    clearbody m4. destruct (r_call ex_growth (fst (fst ex_upd)) (CLookup ex_bob) m4) as [[[d' [o|]] m5]|]; try discriminate H. exists d', o, m5. split; [reflexivity|].
    destruct (answer_value (v_resp m5 o)) as [v|]; [|discriminate H]. apply andb_true_iff in H as [H1 H2]. apply beq_eq in H1. apply beq_eq in H2. subst v. split; [reflexivity|exact H2]. }
  destruct L as (d' & o & m5 & EL & VL & RL).
  eexists (mkW m5 d' _ _), ([_] ++ [_] ++ [] ++ [] ++ [_] ++ []). split.
  - econstructor.
    { eapply (s_call ex_growth _ _ _ _ (CRegister (Some [x09]) ex_bob (buf 2 3)) (fst (fst ex_reg)) (snd (fst ex_reg)) (snd ex_reg)); [constructor; [cbn; lia|constructor]|].
      rewrite <- triple. exact ex_reg_eq. }
    econstructor.
    { eapply (s_call ex_growth _ _ _ _ CUpdate (fst (fst ex_upd)) (snd (fst ex_upd)) (snd ex_upd)); [constructor|]. rewrite <- triple. exact ex_upd_eq. }
    econstructor.
    { eapply (s_write ex_growth _ _ _ _ 2 0 [x00; x00; x00]); [left; reflexivity|intros []|]. vm_compute. lia. }
    econstructor.
    { apply (s_buffer ex_growth _ _ _ _ [x41; x42]). }
    econstructor.
    { eapply (s_call ex_growth _ _ _ _ (CLookup ex_bob)); [constructor|exact EL]. }
    constructor.
  - split; [reflexivity|]. split; [split; [reflexivity|exact VL]|exact RL].
Qed.
Example C93_example_good : good (mkW (snd ex_new) (fst ex_new) [2] []).
Proof. exact ex_new_good. Qed.

Print Assumptions C93_new.
Print Assumptions C93_refines.
Print Assumptions C93_never_writes.
Print Assumptions C93_kept.
Print Assumptions C93_other_writes.
Print Assumptions C93_session.
Print Assumptions C93_session_start.
Print Assumptions C93_answer_stable.
Print Assumptions C93_answer_stable_server.
Print Assumptions C93_tree_set.
Print Assumptions C93_tree_get.
Print Assumptions C93_tree_clone.
Print Assumptions C93_key_buffer_refuted.
Print Assumptions C93_answer_write_refuted.
Print Assumptions C93_signing_key_buffer_refuted.
Print Assumptions C93_index_buffer_refuted.
